(** C54: an instrument split at an MCPL file. *)
From Coq Require Import List String Ascii Bool Arith ZArith QArith Qcanon Lia.
From Verif Require Import PyStr Expr ExprEq InstrModel Properties_Instr Mcpl.
Import ListNotations.
Local Open Scope string_scope.
Local Open Scope list_scope.
Local Open Scope nat_scope.

(** the value of the parameter of that name, given last *)
Definition set_to (i : inst) (n : string) (e : node) : Prop := exists a b, i_params i = a ++ mkCpar n e :: b /\ ~ In n (map cp_name (a ++ b)).

Lemma rbind_ok {A B} (x : res A) (f : A -> res B) b : rbind x f = Ok b -> exists a, x = Ok a /\ f a = Ok b.
Proof. destruct x; cbn; try discriminate. eauto. Qed.
Lemma present_in l n : cpar_present l n = true <-> In n (map cp_name l).
Proof.
  unfold cpar_present. rewrite existsb_exists, in_map_iff. split.
  - intros (p & P & E). apply String.eqb_eq in E. exists p. auto.
  - intros (p & E & P). exists p. split; [auto|]. apply String.eqb_eq. auto.
Qed.
Lemma iparam_in l n : ipar_present l n = true <-> In n (map ip_name l).
Proof.
  unfold ipar_present. rewrite existsb_exists, in_map_iff. split.
  - intros (p & P & E). apply String.eqb_eq in E. exists p. auto.
  - intros (p & E & P). exists p. split; [auto|]. apply String.eqb_eq. auto.
Qed.
Lemma add_ok s p s' : add_parameter s p false = Ok s' -> ~ In (ip_name p) (map ip_name (s_params s)) /\ s' = with_params s (s_params s ++ [p]).
Proof.
  unfold add_parameter. destruct (ipar_present _ _) eqn:E; cbn; [discriminate|]. intro H. injection H as <-. split; [|reflexivity]. rewrite <- iparam_in, E. discriminate.
Qed.
Lemma make_ok place lookup s n c i o ps s' : make place lookup s n c i o ps = Ok s' ->
  exists t fl, (match c with Named k => lookup k | Given t => Ok (t, []) end) = Ok (t, fl) /\ ~ In n (map i_name (s_comps s)) /\ s_params s' = s_params s /\ s_name s' = s_name s /\ s_groups s' = s_groups s /\
    s_comps s' = s_comps s ++ [mkInst n t (i_at i) (i_at_rel i) (i_rot i) (i_rot_rel i) (match o with Some x => x | None => place (i_at i) (i_at_rel i) (i_rot i) (i_rot_rel i) end) ps false (if negb (ct_acc t) then true else false) None None None [] [] []].
Proof.
  unfold make. destruct (existsb _ _) eqn:E; [discriminate|]. intro H. apply rbind_ok in H as ((t & fl) & L & H). unfold make_instance in H. cbn [s_comps with_flags fst snd] in H. rewrite E in H. injection H as <-.
  exists t, fl. split; [exact L|]. split; [|cbn; auto]. intro I. apply existsb_name in I. congruence.
Qed.
Lemma split_ok pos ang s n r f g : NoDup (map i_name (s_comps s)) -> split_instr pos ang s n r = Ok (f, g) ->
  exists before c after, s_comps s = before ++ c :: after /\ i_name c = n /\ s_comps f = before ++ [c] /\
    s_comps g = map (rereference pos ang (c :: after)) (c :: after).
Proof.
  intros N E. assert (I : In n (map i_name (s_comps s))).
  { unfold split_instr, positions in E. rewrite positions_gen in E. destruct (where_named n 0 _) as [|i [|]] eqn:W; try discriminate.
    assert (J : In i (where_named n 0 (map (fun i => Some (i_name i)) (s_comps s)))) by (rewrite W; now left).
    apply where_named_in in J as [_ J]. rewrite nth_error_map in J. destruct (nth_error _ _) as [x|] eqn:X; [|discriminate]. cbn in J. injection J as <-. apply in_map. now apply nth_error_In in X. }
  destruct (split_shape pos ang s n r N I) as (ix & f' & g' & E' & (c & Hc & Hn) & F & G). rewrite E in E'. injection E' as <- <-.
  apply nth_error_split in Hc as (b & a & Hs & L). exists b, c, a. split; [auto|]. split; [auto|]. split.
  - rewrite F, Hs. replace (ix + 1) with (List.length (b ++ [c])) by (rewrite app_length; cbn; lia).
    change (c :: a) with ([c] ++ a). rewrite app_assoc, firstn_app, firstn_all, Nat.sub_diag. cbn. now rewrite app_nil_r.
  - rewrite G, Hs. rewrite <- L, skipn_app, skipn_all, Nat.sub_diag. reflexivity.
Qed.

Lemma split_unique b c a b' c' a' : NoDup (map i_name (b ++ c :: a)) -> b ++ c :: a = b' ++ c' :: a' -> i_name c = i_name c' -> b = b' /\ c = c' /\ a = a'.
Proof.
  revert b'. induction b as [|x t IH]; intros [|y b'] N H E; cbn in *.
  - injection H as -> ->. auto.
  - injection H as -> ->. exfalso. inversion N as [|? ? Q _]. apply Q. rewrite E. rewrite map_app. apply in_or_app. right. now left.
  - injection H as -> <-. exfalso. inversion N as [|? ? Q _]. apply Q. rewrite <- E. rewrite map_app. apply in_or_app. right. now left.
  - injection H as -> H. inversion N. destruct (IH b') as (-> & -> & ->); auto.
Qed.

Section Props.
Variable place : triple -> option string -> triple -> option string -> list node.
Variables pos ang : inst -> triple.
Variable lookup : string -> res (ctype * list string).
Variable parse : string -> res ipar.
Notation mcpl_split := (mcpl_split place pos ang lookup parse).

Lemma mcpl_ok s n fn out ops inp ips rm first second : NoDup (map i_name (s_comps s)) -> mcpl_split s n fn out ops inp ips rm = Ok (first, second) ->
  exists before c after f g text par to tof ti tif, s_comps s = before ++ c :: after /\ i_name c = n /\ split_instr pos ang s n rm = Ok (f, g) /\
    mcpl_text (s_name s) fn = Ok text /\ parse ("string mcpl_filename = " ++ text)%string = Ok par /\
    (match (match out with Some c => c | None => Named "MCPL_output" end) with Named k => lookup k | Given t => Ok (t, []) end) = Ok (to, tof) /\
    (match (match inp with Some c => c | None => Named "MCPL_input" end) with Named k => lookup k | Given t => Ok (t, []) end) = Ok (ti, tif) /\
    ~ In (ip_name par) (map ip_name (s_params f)) /\ ~ In (ip_name par) (map ip_name (s_params g)) /\
    s_params first = s_params f ++ [par] /\ s_params second = s_params g ++ [par] /\
    s_comps first = before ++ [mkInst n to (i_at c) (i_at_rel c) (i_rot c) (i_rot_rel c) (i_orient c) (with_filename ops) false (if negb (ct_acc to) then true else false) None None None [] [] []] /\
    let sc := rereference pos ang (c :: after) c in
    s_comps second = mkInst n ti (i_at sc) (i_at_rel sc) (i_rot sc) (i_rot_rel sc) (place (i_at sc) (i_at_rel sc) (i_rot sc) (i_rot_rel sc)) (with_verbose (with_filename ips)) false (if negb (ct_acc ti) then true else false) None None None [] [] []
      :: map (rereference pos ang (c :: after)) after.
Proof.
  intros N E. unfold Mcpl.mcpl_split in E. apply rbind_ok in E as (text & Et & E). apply rbind_ok in E as ((f & g) & Es & E). apply rbind_ok in E as (par & Ep & E).
  cbn [fst snd] in E. apply rbind_ok in E as (f1 & Ef & E). apply rbind_ok in E as (g1 & Eg & E). apply add_ok in Ef as (Nf & ->), Eg as (Ng & ->). cbn [s_comps with_params] in E.
  destruct (split_ok pos ang s n rm f g N Es) as (b & c & a & Hs & Hn & Hf & Hg). rewrite Hf, Hg in E. rewrite rev_app_distr in E. cbn [rev app map] in E. rewrite rev_involutive in E.
  apply rbind_ok in E as (f2 & E1 & E). apply rbind_ok in E as (g2 & E2 & E).
  apply make_ok in E1 as (to & tof & L1 & N1 & P1 & _ & _ & C1), E2 as (ti & tif & L2 & N2 & P2 & _ & _ & C2). cbn [s_comps with_comps] in C1, C2. rewrite C2, rev_app_distr in E. cbn [rev app] in E. rewrite rev_involutive in E. injection E as <- <-.
  exists b, c, a, f, g, text, par, to, tof, ti, tif. assert (Rn : i_name (rereference pos ang (c :: a) c) = n) by (rewrite <- Hn; apply rereference_same).
  repeat (split; [assumption|]). split; [rewrite C1, Hn; reflexivity|].
  cbv zeta. cbn [s_comps with_comps]. rewrite Rn. reflexivity.
Qed.
End Props.

(** each part keeps the flags of the instrument and adds those of the component that stands for the file, no other *)
Definition flags_brought (lookup : string -> res (ctype * list string)) (default : string) (c : option compref) (fl : list string) : Prop :=
  match c with
  | None => exists t, lookup default = Ok (t, fl)
  | Some (Named k) => exists t, lookup k = Ok (t, fl)
  | Some (Given _) => fl = []
  end.
Lemma make_flags place lookup s n c i o ps s' : make place lookup s n c i o ps = Ok s' ->
  exists t fl, (match c with Named k => lookup k | Given t => Ok (t, []) end) = Ok (t, fl) /\ s_flags s' = s_flags s ++ fl.
Proof.
  unfold make. destruct (existsb _ _) eqn:E; [discriminate|]. intro H. apply rbind_ok in H as ((t & fl) & L & H). unfold make_instance in H. cbn [s_comps with_flags fst snd] in H. rewrite E in H. injection H as <-.
  exists t, fl. now split.
Qed.
Lemma split_flags pos ang s n r f g : split_instr pos ang s n r = Ok (f, g) -> s_flags f = s_flags s /\ s_flags g = s_flags s.
Proof.
  unfold split_instr. destruct (positions (s_comps s) n) as [|i [|]]; try discriminate. unfold check_parameters. cbn [fst]. intro H. injection H as <- <-. split; destruct (_ && _); reflexivity.
Qed.
Theorem C54_flags place pos ang lookup parse s n fn out ops inp ips rm first second :
  mcpl_split place pos ang lookup parse s n fn out ops inp ips rm = Ok (first, second) ->
  exists fo fi, flags_brought lookup "MCPL_output" out fo /\ flags_brought lookup "MCPL_input" inp fi /\
    s_flags first = s_flags s ++ fo /\ s_flags second = s_flags s ++ fi.
Proof.
  unfold mcpl_split. intro E. apply rbind_ok in E as (text & _ & E). apply rbind_ok in E as ((f & g) & Es & E). apply split_flags in Es as [F G].
  apply rbind_ok in E as (par & _ & E). apply rbind_ok in E as (f1 & A & E). apply rbind_ok in E as (g1 & B & E). cbn [fst snd] in A, B.
  assert (K : forall x y, add_parameter x par false = Ok y -> s_flags y = s_flags x) by (intros x y; unfold add_parameter; destruct (ipar_present _ _); cbn; [discriminate|intro H; injection H as <-; reflexivity]).
  apply K in A, B. destruct (rev (s_comps f1)) as [|fc before]; [discriminate|]. destruct (s_comps g1) as [|sc rest]; [discriminate|].
  apply rbind_ok in E as (f2 & M1 & E). apply rbind_ok in E as (g2 & M2 & E). apply make_flags in M1 as (to & fo & L1 & H1), M2 as (ti & fi & L2 & H2).
  destruct (rev (s_comps g2)) as [|i r]; [discriminate|]. injection E as <- <-. exists fo, fi. cbn [s_flags with_comps] in *.
  split; [destruct out as [[]|]; cbn in *; [eexists; exact L1|congruence|eexists; exact L1]|]. split; [destruct inp as [[]|]; cbn in *; [eexists; exact L2|congruence|eexists; exact L2]|].
  split; congruence.
Qed.
Print Assumptions C54_flags.

(** the parts, with the writing and reading components standing where the named component was; nothing else changes *)
Theorem C54_components_around_the_file place pos ang lookup parse s n fn out ops inp ips rm first second : NoDup (map i_name (s_comps s)) ->
  mcpl_split place pos ang lookup parse s n fn out ops inp ips rm = Ok (first, second) ->
  exists before c after o i tail, s_comps s = before ++ c :: after /\ i_name c = n /\
    s_comps first = before ++ [o] /\ s_comps second = i :: tail /\ Forall2 same_but_placement tail after /\
    i_name o = n /\ i_at o = i_at c /\ i_at_rel o = i_at_rel c /\ i_rot o = i_rot c /\ i_rot_rel o = i_rot_rel c /\ i_orient o = i_orient c /\ i_name i = n /\
    (forall l, ops = Some l -> exists p, i_params o = p ++ l /\ incl (map cp_name p) ["filename"]) /\
    (forall l, ips = Some l -> exists p, i_params i = p ++ l /\ incl (map cp_name p) ["filename"; "verbose"]) /\
    In "filename" (map cp_name (i_params o)) /\ In "filename" (map cp_name (i_params i)) /\ In "verbose" (map cp_name (i_params i)).
Proof.
  intros N E. destruct (mcpl_ok _ _ _ _ _ _ _ _ _ _ _ _ _ _ _ N E) as (b & c & a & f & g & text & par & to & tof & ti & tif & Hs & Hn & _ & _ & _ & _ & _ & _ & _ & _ & _ & Hf & Hg). cbv zeta in Hg.
  eexists b, c, a, _, _, _. split; [exact Hs|]. split; [exact Hn|]. split; [exact Hf|]. split; [exact Hg|]. split.
  { generalize (c :: a). intro k. clear. induction a; constructor; auto. apply rereference_same. }
  cbn [i_name i_at i_at_rel i_rot i_rot_rel i_orient i_params]. repeat (split; [reflexivity|]).
  assert (W : forall p, In "filename" (map cp_name (with_filename p))). { intros [l|]; cbn; [|auto]. destruct (cpar_present l "filename") eqn:Q; [now apply present_in|now left]. }
  split; [|split; [|split; [apply W|split]]].
  - intros l ->. cbn [with_filename]. destruct (cpar_present l "filename"); [exists []|exists [filename_parameter]]; (split; [reflexivity|]); intros x X; cbn in *; tauto.
  - intros l ->. cbn [with_filename]. unfold with_verbose. destruct (cpar_present l "filename").
    + destruct (cpar_present l "verbose"); [exists []|exists [verbose_parameter]]; (split; [reflexivity|]); intros x X; cbn in *; tauto.
    + destruct (cpar_present (filename_parameter :: l) "verbose"); [exists [filename_parameter]|exists [verbose_parameter; filename_parameter]]; (split; [reflexivity|]); intros x X; cbn in *; tauto.
  - unfold with_verbose. destruct (cpar_present _ "verbose"); [apply W|right; apply W].
  - unfold with_verbose. destruct (cpar_present _ "verbose") eqn:Q; [now apply present_in|now left].
Qed.
Print Assumptions C54_components_around_the_file.

(** what the second part reads is what the first wrote: unless the caller says otherwise both components take the file name from the
    instrument parameter mcpl_filename, which both parts have exactly once, with one value made from the name asked for *)
Theorem C54_same_file place pos ang lookup parse s n fn out inp rm first second : NoDup (map i_name (s_comps s)) -> (forall t p, parse ("string mcpl_filename = " ++ t)%string = Ok p -> ip_name p = "mcpl_filename") ->
  mcpl_split place pos ang lookup parse s n fn out None inp None rm = Ok (first, second) ->
  exists o i text par, In o (s_comps first) /\ In i (s_comps second) /\ i_name o = n /\ i_name i = n /\
    set_to o "filename" (NVal (PStr "mcpl_filename") DUndef OParam) /\ set_to i "filename" (NVal (PStr "mcpl_filename") DUndef OParam) /\
    mcpl_text (s_name s) fn = Ok text /\ parse ("string mcpl_filename = " ++ text)%string = Ok par /\
    get_parameter first "mcpl_filename" = Some par /\ get_parameter second "mcpl_filename" = Some par /\
    (forall p, In p (s_params first ++ s_params second) -> ip_name p = "mcpl_filename" -> p = par).
Proof.
  intros N Hp E. destruct (mcpl_ok _ _ _ _ _ _ _ _ _ _ _ _ _ _ _ N E) as (b & c & a & f & g & text & par & to & tof & ti & tif & Hs & Hn & _ & Ht & Pr & _ & _ & Nf & Ng & Pf & Pg & Hf & Hg). cbv zeta in Hg.
  pose proof (Hp text par Pr) as Pn. rewrite Pn in Nf, Ng. eexists _, _, text, par. split; [rewrite Hf; apply in_or_app; right; left; reflexivity|]. split; [rewrite Hg; left; reflexivity|].
  cbn [i_name]. split; [reflexivity|]. split; [reflexivity|]. split; [exists [], []; cbn; auto|]. split; [exists [verbose_parameter], []; cbn; split; [reflexivity|intuition discriminate]|]. split; [auto|]. split; [auto|].
  assert (Gp : forall l, ~ In "mcpl_filename" (map ip_name l) -> find (fun p => "mcpl_filename" =? ip_name p)%string (l ++ [par]) = Some par).
  { induction l as [|x t IH]; intro H; cbn [app find]; [rewrite Pn; reflexivity|]. destruct (String.eqb_spec "mcpl_filename" (ip_name x)) as [Q|Q]; [destruct H; left; auto|]. apply IH. intro K. apply H. now right. }
  assert (Pp : forall l, ipar_present (l ++ [par]) "mcpl_filename" = true). { intro l. apply iparam_in. rewrite map_app. apply in_or_app. right. left. exact Pn. }
  unfold get_parameter. rewrite Pf, Pg, !Pp, !Gp by auto. split; [auto|]. split; [auto|].
  intros p I Q. rewrite !in_app_iff in I. destruct I as [[I|[I|[]]]|[I|[I|[]]]]; auto; exfalso; [apply Nf|apply Ng]; rewrite <- Q; now apply in_map.
Qed.
Print Assumptions C54_same_file.

(** the reading component stands at the absolute place of the named one *)
Theorem C54_reader_is_absolute place pos ang lookup parse s n fn out ops inp ips rm first second before c after : NoDup (map i_name (s_comps s)) ->
  s_comps s = before ++ c :: after -> i_name c = n ->
  (forall r, i_at_rel c = Some r \/ i_rot_rel c = Some r -> In r (map i_name before)) ->
  mcpl_split place pos ang lookup parse s n fn out ops inp ips rm = Ok (first, second) ->
  exists i tail, s_comps second = i :: tail /\ i_at_rel i = None /\ i_rot_rel i = None /\
    i_at i = (match i_at_rel c with None => i_at c | Some _ => pos c end) /\ i_rot i = (match i_rot_rel c with None => i_rot c | Some _ => ang c end).
Proof.
  intros N Hs Hn Hr E. destruct (mcpl_ok _ _ _ _ _ _ _ _ _ _ _ _ _ _ _ N E) as (b & c' & a & f & g & text & par & to & tof & ti & tif & Hs' & Hn' & _ & _ & _ & _ & _ & _ & _ & _ & _ & _ & Hg). cbv zeta in Hg.
  assert (U : before = b /\ c = c' /\ after = a) by (apply split_unique; [now rewrite Hs in N|congruence|congruence]).
  destruct U as (<- & <- & <-). eexists _, _. split; [exact Hg|]. cbn [i_at_rel i_rot_rel i_at i_rot].
  assert (O : forall r, i_at_rel c = Some r \/ i_rot_rel c = Some r -> has_named (c :: after) r = false).
  { intros r R. destruct (has_named (c :: after) r) eqn:Q; [|reflexivity]. apply existsb_name in Q. specialize (Hr r R). exfalso. clear - N Hs Hr Q. rewrite Hs, map_app in N.
    change (In r (map i_name (c :: after))) in Q. revert N Hr Q. generalize (map i_name (c :: after)). generalize (map i_name before). clear. induction l as [|x t IH]; intros k N Hr Q; [destruct Hr|]. cbn in N. inversion N as [|? ? K N']; subst.
    destruct Hr as [<-|Hr]; [|eauto]. apply K. apply in_or_app. now right. }
  unfold rereference. destruct (i_at_rel c) as [x|]; [rewrite (O x (or_introl eq_refl))|]; (destruct (i_rot_rel c) as [y|]; [rewrite (O y (or_intror eq_refl))|]); cbn; auto.
Qed.
Print Assumptions C54_reader_is_absolute.

(** the second part refers only to its own components *)
Theorem C54_second_part_closed place pos ang lookup parse s n fn out ops inp ips rm first second : NoDup (map i_name (s_comps s)) ->
  mcpl_split place pos ang lookup parse s n fn out ops inp ips rm = Ok (first, second) ->
  forall i r, In i (s_comps second) -> i_at_rel i = Some r \/ i_rot_rel i = Some r -> In r (map i_name (s_comps second)).
Proof.
  intros N E i r I R. destruct (mcpl_ok _ _ _ _ _ _ _ _ _ _ _ _ _ _ _ N E) as (b & c & a & f & g & text & par & to & tof & ti & tif & Hs & Hn & Sp & _ & _ & _ & _ & _ & _ & _ & _ & _ & Hg). cbv zeta in Hg.
  destruct (split_ok pos ang s n rm f g N Sp) as (b' & c' & a' & Hs' & Hn' & _ & Hg').
  assert (U : b = b' /\ c = c' /\ a = a') by (apply split_unique; [now rewrite Hs in N|congruence|congruence]). destruct U as (_ & <- & <-). rename Hg' into Eg.
  assert (Nm : map i_name (s_comps second) = map i_name (s_comps g)).
  { rewrite Hg, Eg. cbn [map i_name]. f_equal. rewrite <- Hn. symmetry. exact (proj1 (rereference_same pos ang (c :: a) c)). }
  rewrite Nm. rewrite Hg in I. destruct I as [<-|I].
  - cbn [i_at_rel i_rot_rel] in R. refine (C21_second_part_closed pos ang s n rm f g Sp _ r _ R). rewrite Eg. now left.
  - refine (C21_second_part_closed pos ang s n rm f g Sp i r _ R). rewrite Eg. now right.
Qed.
Print Assumptions C54_second_part_closed.

(** it succeeds whenever the named component is there, no parameter is called mcpl_filename yet and the components can be found *)
Theorem C54_succeeds place pos ang lookup parse s n fn out ops inp ips rm : NoDup (map i_name (s_comps s)) -> In n (map i_name (s_comps s)) ->
  ~ In "mcpl_filename" (map ip_name (s_params s)) -> fn <> Some "" ->
  (forall t, exists p, parse ("string mcpl_filename = " ++ t)%string = Ok p /\ ip_name p = "mcpl_filename") ->
  (forall k, In k ["MCPL_output"; "MCPL_input"] \/ out = Some (Named k) \/ inp = Some (Named k) -> exists t, lookup k = Ok t) ->
  exists r, mcpl_split place pos ang lookup parse s n fn out ops inp ips rm = Ok r.
Proof.
  intros N I Np Nf Hp Hl. unfold mcpl_split.
  assert (Tx : exists text, mcpl_text (s_name s) fn = Ok text).
  { unfold mcpl_text. destruct fn as [[|ch t]|]; [congruence| |].
    - cbv zeta. destruct (andb _ _); eauto.
    - cbv zeta. destruct (s_name s ++ ".mcpl")%string as [|ch t] eqn:Q; [destruct (s_name s); discriminate|]. destruct (andb _ _); eauto. }
  destruct Tx as (text & ->). cbn [rbind]. destruct (C21_split_keeps_components pos ang s n rm N I) as (_ & _ & _ & f & g & _ & _ & Sp & _). rewrite Sp. cbn [rbind fst snd].
  destruct (split_ok pos ang s n rm f g N Sp) as (b & c & a & Hs & Hn & Hf & Hg). destruct (Hp text) as (par & -> & Pn). cbn [rbind].
  assert (Sub : (forall p, In p (s_params f) -> In p (s_params s)) /\ (forall p, In p (s_params g) -> In p (s_params s))).
  { unfold split_instr in Sp. destruct (positions _ _) as [|ix [|]]; try discriminate. injection Sp as <- <-.
    assert (Ck : forall x, forall p, In p (s_params (fst (check_parameters x rm))) -> In p (s_params x)).
    { intros x p. unfold check_parameters. cbn [fst]. match goal with |- context [if ?b then _ else _] => destruct b end; [|auto]. cbn [s_params with_params]. intro K. apply in_map_iff in K as ((q & u) & <- & K). apply filter_In in K as [K _]. now apply in_combine_l in K. }
    split; intros p P; exact (Ck _ p P). }
  assert (Ad : forall x, (forall p, In p (s_params x) -> In p (s_params s)) -> add_parameter x par false = Ok (with_params x (s_params x ++ [par]))).
  { intros x X. unfold add_parameter. destruct (ipar_present (s_params x) (ip_name par)) eqn:Q; [|reflexivity]. apply iparam_in in Q. rewrite Pn in Q. apply in_map_iff in Q as (p & Q & P). exfalso. apply Np. rewrite <- Q. apply in_map. auto. }
  rewrite (Ad f (proj1 Sub)). cbn [rbind]. rewrite (Ad g (proj2 Sub)). cbn [rbind s_comps with_params]. rewrite Hf, Hg, rev_app_distr. cbn [rev app map]. rewrite rev_involutive.
  assert (Mk : forall x m cr i o ps, ~ In m (map i_name (s_comps x)) -> (forall k, cr = Named k -> exists t, lookup k = Ok t) -> exists y j, make place lookup x m cr i o ps = Ok y /\ s_comps y = s_comps x ++ [j]).
  { intros x m cr i o ps M K. unfold make. destruct (existsb _ _) eqn:Q; [apply existsb_name in Q; contradiction|].
    assert (exists t, (match cr with Named k => lookup k | Given t => Ok (t, []) end) = Ok t) as (t & ->). { destruct cr as [k|t]; [apply K; auto|eauto]. }
    cbn [rbind]. unfold make_instance. cbn [s_comps with_flags]. rewrite Q. eexists _, _. split; reflexivity. }
  assert (Nb : ~ In (i_name c) (map i_name b) /\ ~ In (i_name c) (map i_name a)).
  { rewrite Hs, map_app in N. cbn in N. apply NoDup_remove_2 in N. rewrite in_app_iff in N. tauto. }
  match goal with |- context [make place lookup ?x ?m ?cr ?i ?o ?ps] => destruct (Mk x m cr i o ps) as (y & j & -> & _) end.
  { cbn. tauto. } { intros k K. apply Hl. destruct out; [subst; auto|injection K as <-; left; cbn; auto]. }
  cbn [rbind]. match goal with |- context [make place lookup ?x ?m ?cr ?i ?o ?ps] => destruct (Mk x m cr i o ps) as (z & j' & -> & Cz) end.
  { cbn [s_comps with_comps]. rewrite map_map. rewrite (proj1 (rereference_same pos ang (c :: a) c)). rewrite (map_ext (fun x => i_name (rereference pos ang (c :: a) x)) i_name); [tauto|]. intro x. apply rereference_same. }
  { intros k K. apply Hl. destruct inp; [subst; auto|injection K as <-; left; cbn; auto]. }
  cbn [rbind]. rewrite Cz, rev_app_distr. cbn [rev app]. eauto.
Qed.
Print Assumptions C54_succeeds.

(** * What does not hold *)
(** a part made in this way cannot be split again: its parameter mcpl_filename is in the way, whatever is asked for *)
Lemma used_kept s rm p : In p (s_params s) -> param_used s (ip_name p) = true -> In p (s_params (fst (check_parameters s rm))).
Proof.
  intros I U. unfold check_parameters. cbn [fst]. match goal with |- context [if ?b then _ else _] => destruct b end; [|auto]. cbn [s_params with_params]. apply in_map_iff. exists (p, true). split; [reflexivity|]. apply filter_In. split; [|reflexivity].
  rewrite <- U. clear U. set (f := fun q => param_used s (ip_name q)). change (param_used s (ip_name p)) with (f p). induction (s_params s) as [|x t IH]; [destruct I|]. cbn. destruct I as [->|I]; [now left|right; auto].
Qed.
Theorem C54_split_again_refuted place pos ang lookup parse s n fn out ops inp rm first second : NoDup (map i_name (s_comps s)) -> (forall t p, parse ("string mcpl_filename = " ++ t)%string = Ok p -> ip_name p = "mcpl_filename") ->
  mcpl_split place pos ang lookup parse s n fn out ops inp None rm = Ok (first, second) ->
  forall n' fn' out' ops' inp' ips' rm' r, mcpl_split place pos ang lookup parse second n' fn' out' ops' inp' ips' rm' <> Ok r.
Proof.
  intros N Hp E n' fn' out' ops' inp' ips' rm' [first' second'] E'.
  destruct (mcpl_ok _ _ _ _ _ _ _ _ _ _ _ _ _ _ _ N E) as (b & c & a & f & g & text & par & to & tof & ti & tif & Hs & Hn & Sp & _ & Pr & _ & _ & _ & _ & _ & Pg & _ & Hg). cbv zeta in Hg.
  assert (Nm : NoDup (map i_name (s_comps second))).
  { rewrite Hg. cbn [map i_name]. rewrite map_map, (map_ext (fun x => i_name (rereference pos ang (c :: a) x)) i_name) by (intro x; apply rereference_same). rewrite Hs, map_app in N. clear - N Hn.
    induction b as [|x t IH]; [cbn in N; now rewrite Hn in N|]. cbn in N. inversion N; auto. }
  destruct (mcpl_ok _ _ _ _ _ _ _ _ _ _ _ _ _ _ _ Nm E') as (b' & c' & a' & f' & g' & text' & par' & to' & tof' & ti' & tif' & Hs' & Hn' & Sp' & _ & Pr' & _ & _ & Nf' & _).
  apply Nf'. rewrite (Hp text' par' Pr'). rewrite <- (Hp text par Pr). apply in_map. pose proof Sp' as Sp2. unfold split_instr in Sp'. destruct (positions _ _) as [|ix [|]]; try discriminate. apply (f_equal (fun r => match r with Ok (x, _) => x | _ => f' end)) in Sp'. cbv beta iota zeta in Sp'. rewrite <- Sp'.
  apply used_kept; [cbn; rewrite Pg; apply in_or_app; right; now left|]. unfold param_used. apply orb_true_iff. left. apply existsb_exists. cbn [s_comps with_name copy_instr with_comps]. unfold py_slice. rewrite Hg.
  replace (ix + 1) with (S ix) by lia. eexists. split; [cbn [firstn skipn]; left; reflexivity|]. unfold inst_uses. cbn [i_params with_verbose with_filename cpar_present existsb filename_parameter cp_name verbose_parameter]. rewrite (Hp text par Pr). reflexivity.
Qed.
Print Assumptions C54_split_again_refuted.

(** everything else the named component had is dropped: its condition, EXTEND code, jumps, group and metadata *)
Definition busy : inst := mkInst "m" slit o3 None o3 None [] [mkCpar "w" (NVal (PStr "width") DUndef OParam)] true false (Some (num_node 1%Qc)) (Some (NVal (PStr "flag") DUndef OId)) (Some "g") ["x = 1;"] [mkJump "m" 0 true (num_node 1%Qc)] [mkMeta "m" "k" "t" "v"].
Definition width : ipar := mkIpar "width" None (num_node 1%Qc).
Definition filed : ipar := mkIpar "mcpl_filename" None (NVal (PStr """i.mcpl""") DStr OValue).
Definition busy_instr : instr := with_params (with_comps (empty_instr "i") [simple "a" None; busy; simple "z" None]) [width].
Definition look (k : string) : res (ctype * list string) := Ok (mkCtype k [] [] [] true, ["-lmcpl"]).
Definition parse1 (t : string) : res ipar := Ok filed.
Theorem C54_component_dropped_refuted : exists first second, mcpl_split noplace (fun _ => o3) (fun _ => o3) look parse1 busy_instr "m" None None None None None true = Ok (first, second) /\
  (forall x, In x (s_comps first ++ s_comps second) -> i_when x = None /\ i_extend x = [] /\ i_jump x = [] /\ i_group x = None /\ i_meta x = [] /\ i_split x = None) /\
  exists x, In x (s_comps busy_instr) /\ i_name x = "m" /\ i_when x <> None /\ i_extend x <> [] /\ i_jump x <> [] /\ i_group x <> None /\ i_meta x <> [] /\ i_split x <> None.
Proof.
  eexists _, _. split; [reflexivity|]. split.
  - intros x X. cbn in X. repeat (destruct X as [<-|X]; [repeat split|]). destruct X.
  - exists busy. split; [cbn; auto|]. repeat split; discriminate.
Qed.
Print Assumptions C54_component_dropped_refuted.

(** remove_unused_parameters leaves a parameter that only the dropped component used *)
Theorem C54_unused_parameter_left_refuted : exists first second, mcpl_split noplace (fun _ => o3) (fun _ => o3) look parse1 busy_instr "m" None None None None None true = Ok (first, second) /\
  In width (s_params first) /\ param_used first "width" = false /\ In width (s_params second) /\ param_used second "width" = false.
Proof. eexists _, _. split; [reflexivity|]. cbn. auto. Qed.
Print Assumptions C54_unused_parameter_left_refuted.

Example C54_nonvacuous : NoDup (map i_name (s_comps busy_instr)) /\ In "m" (map i_name (s_comps busy_instr)) /\ ~ In "mcpl_filename" (map ip_name (s_params busy_instr)) /\
  exists first second, mcpl_split noplace (fun _ => o3) (fun _ => o3) look parse1 busy_instr "m" None None None None None false = Ok (first, second) /\
    map (fun x => (i_name x, ct_name (i_type x))) (s_comps first) = [("a", "Arm"); ("m", "MCPL_output")] /\
    map (fun x => (i_name x, ct_name (i_type x))) (s_comps second) = [("m", "MCPL_input"); ("z", "Arm")] /\ s_flags first = ["-lmcpl"] /\
    mcpl_text "i" None = Ok """i.mcpl""" /\ mcpl_text "i" (Some """f""") = Ok """f""".
Proof.
  split; [repeat constructor; cbn; intuition discriminate|]. split; [cbn; auto|]. split; [cbn; intuition discriminate|]. eexists _, _. split; [reflexivity|]. repeat split.
Qed.
