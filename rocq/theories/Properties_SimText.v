(* Property C33: the text of a simulation description reads back as it was. *)
From Coq Require Import List String Ascii Bool Arith ZArith Lia.
From Verif Require Import PyStr Flags DatFile TextLines SimCombine SimText.
Import ListNotations.
Local Open Scope string_scope.
Local Open Scope list_scope.
Local Open Scope nat_scope.

(** * Descriptions *)
(** a text on one line, trimmed, without the markers *)
Definition plain_text (markers : list string) (s : string) : Prop :=
  trimmed s = true /\ has_char nl s = false /\ Forall (fun m => contains m s = false) markers.
Definition header_ok (h : header) : Prop :=
  h_desc h <> "" /\ Forall (plain_text ["begin instrument: "]) [h_desc h; h_date h; h_program h].
Definition instrument_ok (n : instrument) : Prop :=
  n_name n <> "" /\ Forall (plain_text ["begin simulation: "; "end instrument"]) [n_name n; n_file n; n_source n; n_params n].
Definition simulation_ok (s : simulation) : Prop :=
  u_name s <> "" /\ Forall (plain_text ["end simulation"]) ([u_name s; u_format s; u_url s; u_creator s; u_instrument s; u_dir s] ++ u_params s).
Definition datum_ok (d : datum) : Prop :=
  keywords_for (List.length (t_keywords d)) = Some (t_keywords d) /\ map fst (t_fields d) = t_keywords d /\
  Forall (fun e => match snd e with VS s => fst e <> "Ncount" /\ plain_text ["end data"] s | VI _ => fst e = "Ncount" end) (t_fields d).
Definition text_ok (f : simtext) : Prop :=
  header_ok (x_header f) /\ instrument_ok (x_instrument f) /\ simulation_ok (x_sim f) /\ Forall datum_ok (x_data f).

(** * Reading blocks of lines *)
Lemma read_zip_ext ls ls' ks : map kv ls = map kv ls' -> read_zip ls ks = read_zip ls' ks.
Proof.
  revert ls' ks. induction ls as [|l ls IH]; intros [|l' ls'] ks H; try discriminate; [reflexivity|]. cbn in H. injection H as H1 H2. destruct ks as [|k ks]; [reflexivity|].
  cbn. now rewrite H1, (IH _ ks H2).
Qed.
Lemma read_keywords_ext ls ls' ks : map kv ls = map kv ls' -> read_keywords ls ks = read_keywords ls' ks.
Proof.
  intro H. unfold read_keywords. rewrite (read_zip_ext _ _ _ H). replace (List.length ls') with (List.length ls); [reflexivity|].
  rewrite <- (map_length kv ls), H. apply map_length.
Qed.
Lemma read_zip_length ls ks vs : List.length ls = List.length ks -> read_zip ls ks = Some vs -> List.length vs = List.length ks.
Proof.
  revert ks vs. induction ls as [|l ls IH]; intros [|k ks] vs L H; try discriminate; [now injection H as <-|]. cbn in H.
  destruct (fst (kv l) =?s k); [|discriminate]. destruct (read_zip ls ks) eqn:E; [|discriminate]. injection H as <-. cbn. f_equal. apply (IH ks); auto.
Qed.
Lemma read_zip_lines w ks vs : white w = true -> has_char ":" w = false -> List.length vs = List.length ks ->
  Forall (fun k => has_char ":" k = false /\ trimmed k = true) ks -> Forall (fun v => trimmed v = true) vs ->
  read_zip (map (fun e => w +++ fst e +++ ": " +++ snd e) (combine ks vs)) ks = Some vs.
Proof.
  intros W Hw. revert vs. induction ks as [|k ks IH]; intros [|v vs] L K V; try discriminate; [reflexivity|]. inversion K as [|? ? [K1 K2] K3]; inversion V as [|? ? V1 V2]; subst.
  cbn [combine map read_zip fst snd]. rewrite kv_line by assumption. cbn [fst snd]. rewrite String.eqb_refl, IH by auto. reflexivity.
Qed.
(** what lines_of gives for a block: the same keys and values *)
Lemma block_kv first mid last w : Forall oneline (first :: mid ++ [last]) -> lstrip first <> "" -> rstrip last <> "" -> white w = true ->
  exists ls, lines_of (unlines (first :: mid ++ [last]) +++ w) = lstrip first :: ls /\ map kv ls = map kv (mid ++ [last]).
Proof.
  intros O F L W. exists (mid ++ [rstrip last]). split; [exact (block_lines _ _ _ _ O F L W)|]. rewrite !map_app. cbn. now rewrite kv_rstrip.
Qed.
Lemma plain_first m s : plain_text m s -> s <> "" -> lstrip s = s.
Proof. intros (H & _) _. apply trimmed_eq in H. now apply trimmed_fix in H. Qed.
Lemma yes_trimmed b : trimmed (yes b) = true.
Proof. destruct b; reflexivity. Qed.
Lemma yes_eqb b : (yes b =?s "yes") = b.
Proof. destruct b; reflexivity. Qed.
Lemma oneline_app p s : has_char nl p = false -> has_char nl s = false -> oneline (p +++ s).
Proof. intros H1 H2. unfold oneline. now rewrite has_char_app, H1, H2. Qed.
Lemma yes_oneline b : has_char nl (yes b) = false.
Proof. destruct b; reflexivity. Qed.
Lemma str_Z_oneline z : has_char nl (str_Z z) = false.
Proof. apply (all_chars_absent numeric); [apply str_Z_numeric|reflexivity]. Qed.
Lemma rstrip_key a b : rstrip a <> "" -> rstrip (a +++ b) <> "".
Proof.
  intro H. destruct (rstrip b) eqn:E.
  - destruct (rstrip_split b) as (w & W & X). rewrite E in X. cbn in X. subst b. now rewrite rstrip_white.
  - rewrite rstrip_app by (rewrite E; discriminate). rewrite E. destruct a; discriminate.
Qed.

Lemma header_back h : header_ok h -> header_parse (unlines (header_lines h ++ [""])) = Some h.
Proof.
  intros (D & H). rewrite Forall_forall in H. destruct (H (h_desc h)) as (T1 & O1 & _); [cbn; auto|]. destruct (H (h_date h)) as (T2 & O2 & _); [cbn; auto|]. destruct (H (h_program h)) as (T3 & O3 & _); [cbn; auto|].
  rewrite unlines_app. unfold header_lines. 
  destruct (block_kv (h_desc h) ["Date: " +++ h_date h] ("Program: " +++ h_program h) (String nl "")) as (ls & E & K).
  { repeat constructor; cbn; auto; now rewrite ?O2, ?O3. }
  { apply trimmed_eq, trimmed_fix in T1 as [T1 _]. congruence. } { apply rstrip_key. discriminate. } { reflexivity. }
  unfold header_parse. cbn [app] in E. change (unlines [""]) with (String nl ""). rewrite E. assert (L : List.length ls = 2) by (rewrite <- (map_length kv ls), K; reflexivity). cbn [List.length negb tl hd]. rewrite L. cbn [Nat.eqb negb].
  rewrite (read_keywords_ext _ _ _ K). unfold read_keywords. cbn [List.length Nat.ltb Nat.leb app].
  pose proof (read_zip_lines "" ["Date"; "Program"] [h_date h; h_program h] eq_refl eq_refl eq_refl) as R. cbn [combine map fst snd append] in R. cbn [append]. rewrite R by (repeat constructor; auto).
  rewrite strip_lstrip, (proj1 (trimmed_eq _) T1). now destruct h.
Qed.
Lemma instrument_back n w : instrument_ok n -> white w = true ->
  instrument_parse (unlines (n_name n :: removelast (tl (instrument_lines n))) +++ w) = Some n.
Proof.
  intros (D & H) W. rewrite Forall_forall in H. destruct (H (n_name n)) as (T1 & O1 & _); [cbn; auto|]. destruct (H (n_file n)) as (T2 & O2 & _); [cbn; auto|]. destruct (H (n_source n)) as (T3 & O3 & _); [cbn; auto|].
  destruct (H (n_params n)) as (T4 & O4 & _); [cbn; auto|]. unfold instrument_lines. cbn [tl removelast].
  destruct (block_kv (n_name n) ["  File: " +++ n_file n; "  Source: " +++ n_source n; "  Parameters: " +++ n_params n;
   "  Trace_enabled: " +++ yes (n_trace n); "  Default_main: " +++ yes (n_main n)] ("  Embedded_runtime: " +++ yes (n_runtime n)) w) as (ls & E & K).
  { repeat constructor; try exact O1; apply oneline_app; auto using yes_oneline. }
  { apply trimmed_eq, trimmed_fix in T1 as [T1 _]. congruence. } { apply rstrip_key. discriminate. } { exact W. }
  unfold instrument_parse. cbn [app] in E. rewrite E. assert (L : List.length ls = 6) by (rewrite <- (map_length kv ls), K; reflexivity). cbn [List.length tl hd]. rewrite L. cbn [Nat.eqb negb].
  rewrite (read_keywords_ext _ _ _ K). unfold read_keywords. cbn [List.length Nat.ltb Nat.leb app instrument_keywords].
  pose proof (read_zip_lines "  " instrument_keywords [n_file n; n_source n; n_params n; yes (n_trace n); yes (n_main n); yes (n_runtime n)] eq_refl eq_refl eq_refl) as R.
  cbn [combine map fst snd append instrument_keywords] in R. cbn [append]. rewrite R by (repeat constructor; auto using yes_trimmed).
  rewrite strip_lstrip, (proj1 (trimmed_eq _) T1), !yes_eqb. now destruct n.
Qed.
Lemma firstn_kv n ls ls' : map kv ls = map kv ls' -> map kv (firstn n ls) = map kv (firstn n ls').
Proof. intro H. now rewrite <- !firstn_map, H. Qed.
Lemma skipn_kv n ls ls' : map kv ls = map kv ls' -> map kv (skipn n ls) = map kv (skipn n ls').
Proof. intro H. now rewrite <- !skipn_map, H. Qed.
Lemma snoc_cases {A} (l : list A) : l <> [] -> exists m x, l = m ++ [x].
Proof. intro H. destruct (exists_last H) as (m & x & E). eauto. Qed.
Lemma simulation_back s : simulation_ok s ->
  simulation_parse (unlines (u_name s :: removelast (tl (simulation_lines s)))) = Some s.
Proof.
  intros (D & H). rewrite Forall_forall in H.
  assert (P : forall x, In x ([u_name s; u_format s; u_url s; u_creator s; u_instrument s; u_dir s] ++ u_params s) -> trimmed x = true /\ has_char nl x = false) by (intros x I; destruct (H x I) as (A & B & _); auto).
  destruct (P (u_name s)) as [T1 O1]; [cbn; auto 10|]. destruct (P (u_format s)) as [T2 O2]; [cbn; auto 10|]. destruct (P (u_url s)) as [T3 O3]; [cbn; auto 10|]. destruct (P (u_creator s)) as [T4 O4]; [cbn; auto 10|].
  destruct (P (u_instrument s)) as [T5 O5]; [cbn; auto 10|]. destruct (P (u_dir s)) as [T6 O6]; [cbn; auto 10|].
  assert (PP : forall x, In x (u_params s) -> trimmed x = true /\ has_char nl x = false) by (intros x I; apply P; apply in_or_app; now right).
  set (body := ["  Format: " +++ u_format s; "  URL: " +++ u_url s; "  Creator: " +++ u_creator s; "  Instrument: " +++ u_instrument s;
   "  Ncount: " +++ str_Z (u_ncount s); "  Trace: " +++ yes (u_trace s); "  Gravitation: " +++ yes (u_grav s); "  Seed: " +++ str_Z (u_seed s);
   "  Directory: " +++ u_dir s]).
  set (pars := map (fun p => "  Param: " +++ p) (u_params s)).
  assert (E0 : removelast (tl (simulation_lines s)) = body ++ pars).
  { unfold simulation_lines. cbn [app tl]. fold pars. change (removelast ((body ++ pars) ++ ["end simulation"]) = body ++ pars). apply removelast_last. }
  rewrite E0. assert (B : Forall oneline (body ++ pars)).
  { apply Forall_app. split; [unfold body; repeat constructor; apply oneline_app; auto using yes_oneline, str_Z_oneline|].
    apply Forall_forall. intros x I. apply in_map_iff in I as (p & <- & I). apply oneline_app; [reflexivity|]. now apply PP. }
  assert (R : Forall (fun l => rstrip l <> "") (body ++ pars)).
  { apply Forall_app. split; [unfold body; repeat constructor; apply rstrip_key; discriminate|].
    apply Forall_forall. intros x I. apply in_map_iff in I as (p & <- & I). apply rstrip_key. discriminate. }
  destruct (snoc_cases (body ++ pars)) as (mid & last & E1); [discriminate|].
  destruct (block_kv (u_name s) mid last "") as (ls & E & K).
  { constructor; [exact O1|]. now rewrite <- E1. } { apply trimmed_eq, trimmed_fix in T1 as [T1 _]. congruence. }
  { rewrite E1 in R. apply Forall_app in R as [_ R]. now inversion R. } { reflexivity. }
  rewrite string_app_nil_r, <- E1 in E. rewrite <- E1 in K. unfold simulation_parse. rewrite E.
  assert (L : List.length ls = 9 + List.length pars) by (rewrite <- (map_length kv ls), K, map_length, app_length; reflexivity).
  cbn [List.length tl hd]. rewrite L. cbn [Nat.ltb Nat.leb Nat.add]. rewrite (read_keywords_ext (firstn 9 ls) body).
  - unfold read_keywords, body. cbn [List.length Nat.ltb Nat.leb simulation_keywords].
    pose proof (read_zip_lines "  " simulation_keywords [u_format s; u_url s; u_creator s; u_instrument s; str_Z (u_ncount s); yes (u_trace s); yes (u_grav s); str_Z (u_seed s); u_dir s] eq_refl eq_refl eq_refl) as Q.
    cbn [combine map fst snd append simulation_keywords] in Q. cbn [append]. rewrite Q by (repeat constructor; auto using yes_trimmed, str_Z_trimmed).
    rewrite !py_int_str, strip_lstrip, (proj1 (trimmed_eq _) T1), !yes_eqb. change (skipn 10 (lstrip (u_name s) :: ls)) with (skipn 9 ls).
    assert (Z : map (fun l => snd (kv l)) (skipn 9 ls) = u_params s).
    { rewrite <- (map_map kv snd), (skipn_kv 9 _ _ K). change (skipn 9 (body ++ pars)) with pars. unfold pars. rewrite !map_map.
      rewrite <- (map_id (u_params s)) at 2. apply map_ext_in. intros p I. change ("  Param: " +++ p) with ("  " +++ "Param" +++ ": " +++ p). now rewrite kv_line by (auto; now apply PP). }
    rewrite Z. now destruct s.
  - rewrite (firstn_kv 9 _ _ K). reflexivity.
Qed.

(** * Data blocks *)
Definition all_keywords : list string :=
  first_keywords ++ ["filename"] ++ second_keywords ++ ["xvar"; "yvar"; "xlabel"; "ylabel"; "zvar"; "zlabel"; "xylimits"; "xlimits"; "variables"].
Fixpoint nodupb (l : list string) : bool := match l with [] => true | x :: t => negb (existsb (String.eqb x) t) && nodupb t end.
Lemma nodupb_ok l : nodupb l = true -> NoDup l.
Proof.
  induction l as [|x t IH]; intro H; [constructor|]. cbn in H. apply andb_prop in H as [H1 H2]. constructor; [|auto]. intro I.
  apply negb_true_iff in H1. rewrite <- not_true_iff_false in H1. apply H1. apply existsb_exists. exists x. split; [exact I|apply String.eqb_refl].
Qed.
Lemma keywords_shape n ks : keywords_for n = Some ks -> (n = 12 \/ n = 13 \/ n = 17 \/ n = 19) /\ List.length ks = n /\ NoDup ks /\ (forall k, In k ks -> In k all_keywords) /\ In "Ncount" ks /\ hd "" ks = "Date".
Proof.
  intro H. assert (N : n = 12 \/ n = 13 \/ n = 17 \/ n = 19).
  { do 20 (destruct n as [|n]; [cbn in H; try discriminate; auto|]). discriminate. }
  assert (I : forall l, forallb (fun k => existsb (String.eqb k) all_keywords) l = true -> forall k, In k l -> In k all_keywords).
  { intros l F k Ik. rewrite forallb_forall in F. apply F in Ik. apply existsb_exists in Ik as (x & Ix & E). apply String.eqb_eq in E. now subst. }
  destruct N as [->|[->|[->| ->]]]; injection H as <-; (split; [auto|]); (split; [reflexivity|]); (split; [apply nodupb_ok; reflexivity|]); (split; [apply I; reflexivity|]); (split; [cbn; tauto|reflexivity]).
Qed.
Lemma keyword_line k v : In k all_keywords -> contains "end data" ("  " +++ k +++ ": " +++ v) = contains "end data" v.
Proof. cbn. intro H. repeat (destruct H as [<-|H]; [reflexivity|]). destruct H. Qed.
Lemma keyword_plain k : In k all_keywords -> has_char ":" k = false /\ trimmed k = true /\ has_char nl k = false.
Proof. cbn. intro H. repeat (destruct H as [<-|H]; [repeat split; reflexivity|]). destruct H. Qed.
Definition field_line (e : string * mval) : string := "  " +++ fst e +++ ": " +++ str_of (snd e).
Lemma get_self d : NoDup (map fst d) -> Forall (fun e => get d (fst e) = Some (snd e)) d.
Proof.
  induction d as [|[k v] t IH]; intro N; [constructor|]. cbn in N. inversion N as [|? ? Nk Nt]; subst. constructor; [cbn; now rewrite String.eqb_refl|].
  specialize (IH Nt). rewrite Forall_forall in *. intros e I. cbn. destruct (k =?s fst e) eqn:E; [|auto]. apply String.eqb_eq in E. subst k. exfalso. apply Nk. now apply in_map.
Qed.
Lemma datum_lines d : datum_ok d -> data_lines d = ["begin data"] ++ map field_line (t_fields d) ++ ["end data"].
Proof.
  intros (K & M & _). destruct (keywords_shape _ _ K) as (_ & _ & N & _). unfold data_lines. f_equal. f_equal. rewrite <- M in N. pose proof (get_self _ N) as G. rewrite <- M.
  assert (W : forall D l, Forall (fun e => get D (fst e) = Some (snd e)) l ->
    flat_map (fun k => match get D k with Some v => ["  " +++ k +++ ": " +++ str_of v] | None => [] end) (map fst l) = map field_line l).
  { clear. intros D l G. induction G as [|e l E _ IH]; [reflexivity|]. cbn [map flat_map]. now rewrite E, IH. }
  now apply W.
Qed.
Lemma field_ok d : datum_ok d -> Forall (fun e => In (fst e) all_keywords /\ trimmed (str_of (snd e)) = true /\ has_char nl (str_of (snd e)) = false /\ contains "end data" (str_of (snd e)) = false) (t_fields d).
Proof.
  intros (K & M & F). destruct (keywords_shape _ _ K) as (_ & _ & _ & I & _). rewrite Forall_forall in *. intros [k v] Ie. split; [apply I; rewrite <- M; apply (in_map fst _ _ Ie)|].
  specialize (F _ Ie). cbn in *. destruct v as [s|z]; cbn.
  - destruct F as [_ (A & B & C)]. inversion C; subst. auto.
  - split; [apply str_Z_trimmed|]. split; [apply str_Z_oneline|]. apply (contains_has_char _ "e"); [reflexivity|]. apply (all_chars_absent numeric); [apply str_Z_numeric|reflexivity].
Qed.
Lemma set_back l n : NoDup (map fst l) -> Forall (fun e => match snd e with VS _ => fst e <> "Ncount" | VI _ => fst e = "Ncount" end) l -> get l "Ncount" = Some (VI n) ->
  set (combine (map fst l) (map VS (map (fun e => str_of (snd e)) l))) "Ncount" (VI n) = l /\
  get (combine (map fst l) (map VS (map (fun e => str_of (snd e)) l))) "Ncount" = Some (VS (str_Z n)).
Proof.
  induction l as [|[k v] t IH]; intros N F G; [discriminate|]. cbn in N. inversion N as [|? ? Nk Nt]; subst. inversion F as [|? ? F1 F2]; subst. cbn [map combine fst snd set get].
  cbn [get] in G. destruct (k =?s "Ncount") eqn:E.
  - injection G as ->. apply String.eqb_eq in E. subst k. split; [|reflexivity]. f_equal. clear -Nk F2. induction t as [|[k w] t IH]; [reflexivity|]. inversion F2 as [|? ? F1 F3]; subst. cbn in *.
    rewrite IH by (auto; tauto). destruct w; [reflexivity|]. exfalso. apply Nk. now left.
  - destruct (IH Nt F2 G) as [A B]. rewrite A, B. split; [|reflexivity]. f_equal. f_equal. cbn in F1. destruct v; [reflexivity|]. subst k. discriminate.
Qed.
Lemma combine_map {A B C} (f : A -> B) (g : A -> C) l : combine (map f l) (map g l) = map (fun x => (f x, g x)) l.
Proof. induction l; cbn; congruence. Qed.
Lemma datum_back d : datum_ok d -> data_parse (strip (String nl (unlines (map field_line (t_fields d))))) = Some d /\ strip (String nl (unlines (map field_line (t_fields d)))) <> "".
Proof.
  intro OK. pose proof (field_ok d OK) as FO. destruct OK as (K & M & F). destruct (keywords_shape _ _ K) as (LN & _ & N & I & NC & HD).
  assert (NE : exists e f l, t_fields d = e :: l ++ [f]).
  { destruct (t_fields d) as [|e t]; [cbn in M; rewrite <- M in NC; destruct NC|]. destruct t as [|x t]; [cbn in M; rewrite <- M in LN; cbn in LN; lia|].
    destruct (snoc_cases (x :: t)) as (m & y & E); [discriminate|]. rewrite E. eauto. }
  destruct NE as (e & f & l & EF).
  assert (LK : exists ls, lines_of (String nl (unlines (map field_line (t_fields d)))) = ls /\ map kv ls = map kv (map field_line (t_fields d))).
  { eexists. split; [reflexivity|]. rewrite EF. cbn [map]. rewrite map_app. cbn [map].
    assert (OL : Forall oneline (map field_line (t_fields d))).
    { apply Forall_forall. intros x Ix. apply in_map_iff in Ix as (y & <- & Iy). rewrite Forall_forall in FO. destruct (FO _ Iy) as (Ik & _ & H & _). destruct (keyword_plain _ Ik) as (_ & _ & Hk).
      unfold field_line. apply oneline_app; [reflexivity|]. unfold oneline. rewrite !has_char_app, Hk, H. reflexivity. }
    rewrite EF in OL. cbn [map] in OL. rewrite map_app in OL. cbn [map] in OL.
    destruct (block_kv (field_line e) (map field_line l) (field_line f) "" OL) as (ls & E & KV).
    - unfold field_line. rewrite lstrip_white by reflexivity. rewrite lstrip_app.
      + destruct (lstrip (fst e)) eqn:X; [|discriminate]. exfalso. rewrite EF in M. cbn in M. rewrite <- M in HD. cbn in HD. rewrite HD in X. discriminate.
      + rewrite EF in M. cbn in M. rewrite <- M in HD. cbn in HD. rewrite HD. discriminate.
    - unfold field_line. rewrite <- !string_app_assoc. apply rstrip_key. rewrite rstrip_app; [|discriminate]. destruct (("  " +++ fst f)); discriminate.
    - reflexivity.
    - rewrite string_app_nil_r in E. unfold lines_of in *. change (String nl ?x) with (String nl "" +++ x). rewrite strip_white_l by reflexivity. rewrite E. cbn [map]. now rewrite kv_lstrip, KV. }
  destruct LK as (ls & EL & KV).
  assert (LL : List.length ls = List.length (t_keywords d)) by (rewrite <- (map_length kv ls), KV, !map_length, <- M, map_length; reflexivity).
  split.
  - unfold data_parse. unfold lines_of. rewrite strip_idem. fold (lines_of (String nl (unlines (map field_line (t_fields d))))). rewrite EL, LL, K. rewrite (read_keywords_ext _ _ _ KV). unfold read_keywords. rewrite map_length.
    rewrite <- M, map_length, Nat.ltb_irrefl.
    pose proof (read_zip_lines "  " (map fst (t_fields d)) (map (fun e => str_of (snd e)) (t_fields d)) eq_refl eq_refl) as R. rewrite combine_map, map_map in R. cbn [fst snd] in R. fold field_line in R.
    change (fun x : string * mval => "  " +++ fst x +++ ": " +++ str_of (snd x)) with field_line in R. rewrite R.
    + assert (G : exists n, get (t_fields d) "Ncount" = Some (VI n)).
      { rewrite <- M in NC. apply in_map_iff in NC as ([k v] & E & Ie). cbn in E. subst k. rewrite <- M in N. pose proof (get_self _ N) as G. rewrite Forall_forall in G, F.
        specialize (G _ Ie). specialize (F _ Ie). cbn in G, F. destruct v as [s|n]; [destruct F; congruence|eauto]. }
      destruct G as [n G]. rewrite <- M in N. destruct (set_back (t_fields d) n N) as [S1 S2]; [|exact G|].
      { eapply Forall_impl; [|exact F]. intros [k [s|z]]; cbn; tauto. }
      rewrite S2. cbn [int_of]. rewrite py_int_str, S1. rewrite M. now destruct d.
    + now rewrite !map_length.
    + apply Forall_forall. intros k Ik. rewrite M in Ik. destruct (keyword_plain _ (I _ Ik)) as (A & B & _). auto.
    + apply Forall_forall. intros x Ix. apply in_map_iff in Ix as (y & <- & Iy). rewrite Forall_forall in FO. now apply FO.
  - intro E. unfold lines_of in EL. rewrite E in EL. cbn in EL. subst ls. cbn in LL. lia.
Qed.
Lemma pcut_some m s p : cut m s = Some p -> pcut m s = p.
Proof. unfold pcut. now intros ->. Qed.
Lemma data_parts_empty fuel : data_parts fuel "" = Some [].
Proof. destruct fuel; reflexivity. Qed.
Lemma parts_back ds : Forall datum_ok ds -> forall fuel n, List.length ds < fuel ->
  data_parts fuel (unlines (repeat "" n ++ flat_map (fun d => data_lines d ++ [""]) ds)) = Some (map (fun d => strip (String nl (unlines (map field_line (t_fields d))))) ds).
Proof.
  assert (E : forall m n, m <> "" -> Forall (fun l => contains m l = false) (repeat "" n)).
  { intros m n Hm. apply Forall_forall. intros x I. apply repeat_spec in I. subst. destruct m; [congruence|reflexivity]. }
  induction 1 as [|d ds OK _ IH]; intros fuel n L.
  - cbn [flat_map map]. rewrite app_nil_r. destruct n as [|n]; [apply data_parts_empty|]. destruct fuel as [|fuel]; [lia|].
    assert (C1 : pcut "end data" (unlines (repeat "" (S n))) = (unlines (repeat "" (S n)), "")) by (unfold pcut; rewrite cut_lines_none by (try discriminate; auto; apply E; discriminate); reflexivity).
    assert (C2 : pcut "begin data" (unlines (repeat "" (S n))) = (unlines (repeat "" (S n)), "")) by (unfold pcut; rewrite cut_lines_none by (try discriminate; auto; apply E; discriminate); reflexivity).
    cbn [data_parts]. cbn [repeat unlines append] in *. rewrite C1, C2. cbn [snd]. rewrite data_parts_empty. reflexivity.
  - destruct fuel as [|fuel]; [lia|]. destruct (datum_back d OK) as [B1 B2]. pose proof (field_ok d OK) as FO.
    cbn [flat_map map]. rewrite datum_lines by exact OK.
    assert (X : unlines (repeat "" n ++ ((["begin data"] ++ map field_line (t_fields d) ++ ["end data"]) ++ [""]) ++ flat_map (fun d => data_lines d ++ [""]) ds) =
                unlines (repeat "" n ++ ["begin data"] ++ map field_line (t_fields d)) +++ "end data" +++ unlines (repeat "" 2 ++ flat_map (fun d => data_lines d ++ [""]) ds)).
    { rewrite !unlines_app. cbn [unlines repeat app]. rewrite ?string_app_assoc. cbn [append]. rewrite ?string_app_assoc. reflexivity. }
    rewrite X. assert (C1 : pcut "end data" (unlines (repeat "" n ++ ["begin data"] ++ map field_line (t_fields d)) +++ "end data" +++ unlines (repeat "" 2 ++ flat_map (fun d => data_lines d ++ [""]) ds)) =
      (unlines (repeat "" n ++ ["begin data"] ++ map field_line (t_fields d)), unlines (repeat "" 2 ++ flat_map (fun d => data_lines d ++ [""]) ds))).
    { apply pcut_some. apply cut_lines; [discriminate|reflexivity|]. apply Forall_app. split; [apply E; discriminate|]. constructor; [reflexivity|].
      apply Forall_forall. intros x Ix. apply in_map_iff in Ix as (y & <- & Iy). rewrite Forall_forall in FO. destruct (FO _ Iy) as (Ik & _ & _ & C). unfold field_line. now rewrite keyword_line. }
    assert (C2 : snd (pcut "begin data" (unlines (repeat "" n ++ ["begin data"] ++ map field_line (t_fields d)))) = String nl (unlines (map field_line (t_fields d)))).
    { rewrite unlines_app. change (unlines (["begin data"] ++ map field_line (t_fields d))) with ("begin data" +++ String nl (unlines (map field_line (t_fields d)))).
      erewrite pcut_some; [|apply cut_lines; [discriminate|reflexivity|apply E; discriminate]]. reflexivity. }
    destruct (unlines (repeat "" n ++ ["begin data"] ++ map field_line (t_fields d)) +++ "end data" +++ unlines (repeat "" 2 ++ flat_map (fun d => data_lines d ++ [""]) ds)) as [|a s] eqn:Q.
    + exfalso. destruct n; discriminate.
    + cbn [data_parts]. rewrite C1. cbn [snd] in C2. rewrite C2. rewrite IH by (cbn in L; lia). apply String.eqb_neq in B2. rewrite B2. reflexivity.
Qed.
Lemma traverse_map {A B} (f : A -> option B) (g : B -> A) l : Forall (fun x => f (g x) = Some x) l -> traverse f (map g l) = Some l.
Proof. induction 1 as [|x l E _ IH]; cbn; [reflexivity|]. now rewrite E, IH. Qed.
Lemma parts_fuel ds n : List.length ds <= String.length (unlines (repeat "" n ++ flat_map (fun d => data_lines d ++ [""]) ds)).
Proof.
  rewrite unlines_app, string_app_length. assert (H : List.length ds <= String.length (unlines (flat_map (fun d => data_lines d ++ [""]) ds))); [|lia].
  induction ds as [|d ds IH]; [cbn; lia|]. cbn [flat_map]. rewrite unlines_app, string_app_length.
  assert (P : 1 <= String.length (unlines (data_lines d ++ [""]))) by (unfold data_lines; cbn; lia). cbn [List.length]. lia.
Qed.

(* For every description within the format: reading what was written gives it back. *)
Theorem C33_round_trip : forall f, text_ok f -> sim_parse (to_file f) = Some f.
Proof.
  intros f (Hh & Hi & Hs & Hd). unfold to_file, sim_lines.
  set (D := flat_map (fun d => data_lines d ++ [""]) (x_data f)).
  set (ib := removelast (tl (instrument_lines (x_instrument f)))). set (sb := removelast (tl (simulation_lines (x_sim f)))).
  assert (Ei : instrument_lines (x_instrument f) = ["begin instrument: " +++ n_name (x_instrument f)] ++ ib ++ ["end instrument"]) by reflexivity.
  assert (Es : simulation_lines (x_sim f) = ["begin simulation: " +++ u_name (x_sim f)] ++ sb ++ ["end simulation"]).
  { unfold sb, simulation_lines. cbn [app tl]. f_equal.
    match goal with |- ?a :: ?b :: ?c :: ?d :: ?e :: ?g :: ?h :: ?i :: ?j :: ?l ++ ?z = _ => change (a :: b :: c :: d :: e :: g :: h :: i :: j :: l ++ z) with ((a :: b :: c :: d :: e :: g :: h :: i :: j :: l) ++ z) end.
    now rewrite removelast_last. }
  assert (T : unlines (header_lines (x_header f) ++ [""] ++ instrument_lines (x_instrument f) ++ [""] ++ simulation_lines (x_sim f) ++ [""] ++ D) =
    unlines (header_lines (x_header f) ++ [""]) +++ "begin instrument: " +++
    unlines ((n_name (x_instrument f) :: ib) ++ ["end instrument"; ""]) +++ "begin simulation: " +++
    unlines (u_name (x_sim f) :: sb) +++ "end simulation" +++ unlines (repeat "" 2 ++ D)).
  { rewrite Ei, Es. rewrite !unlines_app. cbn [unlines repeat app]. rewrite ?string_app_assoc. cbn [append]. rewrite ?string_app_assoc, ?unlines_app. cbn [unlines append]. rewrite ?string_app_assoc. cbn [append]. rewrite ?string_app_assoc. cbn [append]. reflexivity. }
  rewrite T. unfold sim_parse.
  destruct Hh as [Hh0 Hh1]. pose proof Hh1 as Hh2. rewrite Forall_forall in Hh2.
  rewrite (pcut_some _ _ _ (cut_lines "begin instrument: " (header_lines (x_header f) ++ [""]) _ ltac:(discriminate) eq_refl
    ltac:(unfold header_lines; cbn [app]; repeat constructor;
      [destruct (Hh2 (h_desc (x_header f))) as (_ & _ & Q); [cbn; auto|now inversion Q]
      |change (contains "begin instrument: " (h_date (x_header f)) = false); destruct (Hh2 (h_date (x_header f))) as (_ & _ & Q); [cbn; auto|now inversion Q]
      |change (contains "begin instrument: " (h_program (x_header f)) = false); destruct (Hh2 (h_program (x_header f))) as (_ & _ & Q); [cbn; auto|now inversion Q]]))).
  destruct Hi as [Hi0 Hi1]. pose proof Hi1 as Hi2. rewrite Forall_forall in Hi2.
  assert (M1 : forall m, m = "begin simulation: " \/ m = "end instrument" -> Forall (fun l => contains m l = false) (n_name (x_instrument f) :: ib)).
  { intros m Hm. unfold ib, instrument_lines. cbn [tl removelast].
    assert (Q : forall x, In x [n_name (x_instrument f); n_file (x_instrument f); n_source (x_instrument f); n_params (x_instrument f)] -> contains m x = false).
    { intros x Ix. destruct (Hi2 x Ix) as (_ & _ & Q). inversion Q as [|? ? Q1 Q2]; inversion Q2; subst. destruct Hm as [->| ->]; assumption. }
    assert (Y : forall b, contains m (yes b) = false) by (intros []; destruct Hm as [->| ->]; reflexivity).
    constructor; [apply Q; cbn; auto|].
    destruct Hm as [-> | ->]; repeat constructor.
    all: first [ exact (Q (n_file (x_instrument f)) ltac:(cbn; auto)) | exact (Q (n_source (x_instrument f)) ltac:(cbn; auto)) | exact (Q (n_params (x_instrument f)) ltac:(cbn; auto))
      | exact (Y (n_trace (x_instrument f))) | exact (Y (n_main (x_instrument f))) | exact (Y (n_runtime (x_instrument f))) ]. }
  rewrite (pcut_some _ _ _ (cut_lines "begin simulation: " ((n_name (x_instrument f) :: ib) ++ ["end instrument"; ""]) _ ltac:(discriminate) eq_refl
     ltac:(apply Forall_app; split; [apply M1; auto|repeat constructor]))).
  assert (EI : pcut "end instrument" (unlines ((n_name (x_instrument f) :: ib) ++ ["end instrument"; ""])) = (unlines (n_name (x_instrument f) :: ib), String nl (String nl ""))).
  { apply pcut_some. rewrite unlines_app. change (unlines ["end instrument"; ""]) with ("end instrument" +++ String nl (String nl "")). apply cut_lines; [discriminate|reflexivity|apply M1; auto]. }
  rewrite EI.
  destruct Hs as [Hs0 Hs1]. pose proof Hs1 as Hs2. rewrite Forall_forall in Hs2.
  assert (M2 : Forall (fun l => contains "end simulation" l = false) (u_name (x_sim f) :: sb)).
  { assert (Q : forall x, In x ([u_name (x_sim f); u_format (x_sim f); u_url (x_sim f); u_creator (x_sim f); u_instrument (x_sim f); u_dir (x_sim f)] ++ u_params (x_sim f)) -> contains "end simulation" x = false).
    { intros x Ix. destruct (Hs2 x Ix) as (_ & _ & Q). now inversion Q. }
    assert (Y : forall b, contains "end simulation" (yes b) = false) by (intros []; reflexivity).
    assert (Z : forall z, contains "end simulation" (str_Z z) = false).
    { intro z. apply (contains_has_char _ "e"); [reflexivity|]. apply (all_chars_absent numeric); [apply str_Z_numeric|reflexivity]. }
    constructor; [apply Q; cbn; auto|].
    assert (W : Forall (fun l => contains "end simulation" l = false) (tl (removelast (simulation_lines (x_sim f))))).
    { rewrite Es. rewrite app_assoc, removelast_last. cbn [app tl]. clear Es. 
      assert (W2 : sb ++ ["end simulation"] = tl (simulation_lines (x_sim f))).
      { unfold sb, simulation_lines. cbn [app tl]. match goal with |- removelast (?a :: ?b :: ?c :: ?d :: ?e :: ?g :: ?h :: ?i :: ?j :: ?l ++ ?z) ++ _ = _ => change (a :: b :: c :: d :: e :: g :: h :: i :: j :: l ++ z) with ((a :: b :: c :: d :: e :: g :: h :: i :: j :: l) ++ z) end. now rewrite removelast_last. }
      unfold simulation_lines in W2. cbn [app tl] in W2. 
      match type of W2 with _ = ?a :: ?b :: ?c :: ?d :: ?e :: ?g :: ?h :: ?i :: ?j :: ?l ++ ?z => change (a :: b :: c :: d :: e :: g :: h :: i :: j :: l ++ z) with ((a :: b :: c :: d :: e :: g :: h :: i :: j :: l) ++ z) in W2 end.
      apply app_inj_tail in W2 as [-> _]. constructor; [exact (Q (u_format (x_sim f)) ltac:(cbn; auto))|]. constructor; [exact (Q (u_url (x_sim f)) ltac:(cbn; auto))|].
      constructor; [exact (Q (u_creator (x_sim f)) ltac:(cbn; auto))|]. constructor; [exact (Q (u_instrument (x_sim f)) ltac:(cbn; auto 10))|]. constructor; [exact (Z (u_ncount (x_sim f)))|].
      constructor; [exact (Y (u_trace (x_sim f)))|]. constructor; [exact (Y (u_grav (x_sim f)))|]. constructor; [exact (Z (u_seed (x_sim f)))|]. constructor; [exact (Q (u_dir (x_sim f)) ltac:(cbn; auto 10))|].
      apply Forall_forall. intros l Il. apply in_map_iff in Il as (p & <- & Ip). exact (Q p ltac:(apply in_or_app; now right)). }
    rewrite Es, app_assoc, removelast_last in W. exact W. }
  rewrite (pcut_some _ _ _ (cut_lines "end simulation" (u_name (x_sim f) :: sb) _ ltac:(discriminate) eq_refl M2)).
  unfold D. rewrite parts_back by (auto; pose proof (parts_fuel (x_data f) 2); lia).
  rewrite header_back by (split; assumption).
  pose proof (instrument_back (x_instrument f) "" (conj Hi0 Hi1) eq_refl) as IB. rewrite string_app_nil_r in IB. fold ib in IB. rewrite IB.
  pose proof (simulation_back (x_sim f) (conj Hs0 Hs1)) as SB. fold sb in SB. rewrite SB.
  rewrite (traverse_map data_parse (fun d => strip (String nl (unlines (map field_line (t_fields d)))))).
  - now destruct f.
  - eapply Forall_impl; [|exact Hd]. intros d Od. now apply datum_back.
Qed.
Print Assumptions C33_round_trip.

(** * Whatever is read is within the format *)
Definition from (m : list string) (contents v : string) : Prop := part_of v contents /\ has_char nl v = false /\ trimmed v = true.
Lemma from_plain ms contents v : from ms contents v -> Forall (fun m => contains m contents = false) ms -> plain_text ms v.
Proof. intros (P & N & T) F. split; [exact T|]. split; [exact N|]. eapply Forall_impl; [|exact F]. intros m. now apply part_contains. Qed.
Lemma lines_part ms contents l : In l (lines_of contents) -> from ms contents (snd (kv l)) /\ from ms contents (strip l).
Proof.
  intro I. pose proof (split_char_part _ _ _ I) as P. pose proof (split_char_nochar nl (strip contents)) as N. rewrite Forall_forall in N. specialize (N _ I).
  assert (Q : part_of l contents) by (eapply part_trans; [exact P|apply part_strip]). split.
  - split; [eapply part_trans; [apply kv_fst_snd_part|exact Q]|]. split; [eapply part_char; [apply kv_fst_snd_part|exact N]|apply kv_trimmed].
  - split; [eapply part_trans; [apply part_strip|exact Q]|]. split; [eapply part_char; [apply part_strip|exact N]|apply trimmed_strip].
Qed.
Lemma read_zip_from ls ks vs : read_zip ls ks = Some vs -> forall v, In v vs -> exists l, In l ls /\ v = snd (kv l).
Proof.
  revert ks vs. induction ls as [|l ls IH]; intros [|k ks] vs H v I; cbn in H; try (injection H as <-; destruct I).
  destruct (fst (kv l) =?s k); [|discriminate]. destruct (read_zip ls ks) as [ws|] eqn:E; [|discriminate]. injection H as <-. destruct I as [<-|I].
  - exists l. split; [now left|reflexivity].
  - destruct (IH _ _ E v I) as (x & Ix & Ex). exists x. split; [now right|exact Ex].
Qed.
Lemma read_from ls ks vs : read_keywords ls ks = Some vs -> forall v, In v vs -> exists l, In l ls /\ v = snd (kv l).
Proof. unfold read_keywords. destruct (_ <? _); [discriminate|]. apply read_zip_from. Qed.
Lemma first_line_nonempty contents : 2 <= List.length (lines_of contents) -> strip (hd "" (lines_of contents)) <> "".
Proof.
  unfold lines_of. destruct (strip contents) as [|a t] eqn:E; [cbn; lia|]. intros _. pose proof (strip_head _ _ _ E) as A. cbn [split_char].
  destruct (Ascii.eqb a nl) eqn:Q; [apply Ascii.eqb_eq in Q; subst a; discriminate|]. destruct (split_char nl t) as [|x r]; cbn [hd]; now apply strip_nonempty.
Qed.
Lemma tl_in {A} (x : A) l : In x (tl l) -> In x l.
Proof. destruct l; cbn; auto. Qed.
Lemma hd_in l : l <> [] -> In (hd "" l) l.
Proof. destruct l; [congruence|cbn; auto]. Qed.
Lemma lines_nonempty c : lines_of c <> [].
Proof. apply split_char_nonempty. Qed.
Ltac dest_list H := repeat match type of H with context [match ?l with [] => _ | _ :: _ => _ end] => destruct l as [|? l]; try discriminate H end.
Lemma header_parsed c h : header_parse c = Some h -> contains "begin instrument: " c = false -> header_ok h.
Proof.
  unfold header_parse. destruct (List.length (lines_of c) =? 3) eqn:L; cbn [negb]; [|discriminate]. apply Nat.eqb_eq in L.
  destruct (read_keywords (tl (lines_of c)) ["Date"; "Program"]) as [vs|] eqn:R; [|discriminate]. intros H M.
  destruct vs as [|d [|p [|]]]; try discriminate. injection H as <-. split; [apply first_line_nonempty; lia|].
  assert (Q : forall v, In v [d; p] -> plain_text ["begin instrument: "] v).
  { intros v I. destruct (read_from _ _ _ R v I) as (l & Il & ->). eapply from_plain; [apply (proj1 (lines_part [] c l (tl_in _ _ Il)))|]. auto. }
  cbn. constructor; [|constructor; [apply Q; cbn; auto|constructor; [apply Q; cbn; auto|constructor]]].
  eapply from_plain; [apply (proj2 (lines_part [] c _ (hd_in _ (lines_nonempty c))))|auto].
Qed.
Lemma instrument_parsed c n : instrument_parse c = Some n -> contains "begin simulation: " c = false -> contains "end instrument" c = false -> instrument_ok n.
Proof.
  unfold instrument_parse. destruct (List.length (lines_of c) =? 7) eqn:L; cbn [negb]; [|discriminate]. apply Nat.eqb_eq in L.
  destruct (read_keywords (tl (lines_of c)) instrument_keywords) as [vs|] eqn:R; [|discriminate]. intros H M1 M2.
  destruct vs as [|v1 [|v2 [|v3 [|v4 [|v5 [|v6 [|]]]]]]]; try discriminate. injection H as <-. split; [apply first_line_nonempty; lia|].
  assert (Q : forall v, In v [v1; v2; v3; v4; v5; v6] -> plain_text ["begin simulation: "; "end instrument"] v).
  { intros v I. destruct (read_from _ _ _ R v I) as (l & Il & ->). eapply from_plain; [apply (proj1 (lines_part [] c l (tl_in _ _ Il)))|]. auto. }
  cbn. constructor; [|repeat (constructor; [apply Q; cbn; tauto|]); constructor].
  eapply from_plain; [apply (proj2 (lines_part [] c _ (hd_in _ (lines_nonempty c))))|auto].
Qed.
Lemma firstn_in {A} n (x : A) l : In x (firstn n l) -> In x l.
Proof. intro H. rewrite <- (firstn_skipn n l). apply in_or_app. now left. Qed.
Lemma skipn_in {A} n (x : A) l : In x (skipn n l) -> In x l.
Proof. intro H. rewrite <- (firstn_skipn n l). apply in_or_app. now right. Qed.
Lemma simulation_parsed c s : simulation_parse c = Some s -> contains "end simulation" c = false -> simulation_ok s.
Proof.
  unfold simulation_parse. destruct (List.length (lines_of c) <? 10) eqn:L; [discriminate|]. apply Nat.ltb_ge in L.
  destruct (read_keywords (firstn 9 (tl (lines_of c))) simulation_keywords) as [vs|] eqn:R; [|discriminate]. intros H M.
  destruct vs as [|v1 [|v2 [|v3 [|v4 [|v5 [|v6 [|v7 [|v8 [|v9 [|]]]]]]]]]]; try discriminate. destruct (py_int v5); [|discriminate]. destruct (py_int v8); [|discriminate]. injection H as <-.
  split; [apply first_line_nonempty; lia|].
  assert (Q : forall v, In v [v1; v2; v3; v4; v5; v6; v7; v8; v9] -> plain_text ["end simulation"] v).
  { intros v I. destruct (read_from _ _ _ R v I) as (l & Il & ->). eapply from_plain; [apply (proj1 (lines_part [] c l (tl_in _ _ (firstn_in _ _ _ Il))))|]. auto. }
  cbn [u_name u_format u_url u_creator u_instrument u_dir u_params app]. constructor; [|].
  - eapply from_plain; [apply (proj2 (lines_part [] c _ (hd_in _ (lines_nonempty c))))|auto].
  - repeat (constructor; [apply Q; cbn; tauto|]). apply Forall_forall. intros v I. apply in_map_iff in I as (l & <- & Il).
    eapply from_plain; [apply (proj1 (lines_part [] c l (skipn_in 10 l (lines_of c) Il)))|auto].
Qed.
Lemma map_fst_combine {A B} (a : list A) (b : list B) : List.length a = List.length b -> map fst (combine a b) = a.
Proof. revert b. induction a as [|x a IH]; intros [|y b] H; try discriminate; cbn; [reflexivity|]. now rewrite IH by auto. Qed.
Lemma set_fst d k v w : get d k = Some w -> map fst (set d k v) = map fst d.
Proof. induction d as [|[a x] t IH]; cbn; [discriminate|]. destruct (a =?s k); cbn; [reflexivity|]. intro H. now rewrite IH. Qed.
Lemma set_in d k v e : In e (set d k v) -> NoDup (map fst d) -> e = (k, v) \/ (In e d /\ fst e <> k).
Proof.
  induction d as [|[a x] t IH]; cbn; intros I N; [destruct I as [<-|[]]; auto|]. inversion N as [|? ? Na Nt]; subst. destruct (a =?s k) eqn:E.
  - apply String.eqb_eq in E. subst. destruct I as [<-|I]; [auto|]. right. split; [auto|]. intro Q. apply Na. rewrite <- Q. now apply in_map.
  - destruct I as [<-|I]; [right; split; [auto|now apply String.eqb_neq]|]. destruct (IH I Nt) as [->|[H1 H2]]; auto.
Qed.
Lemma datum_parsed c d : data_parse c = Some d -> contains "end data" c = false -> datum_ok d.
Proof.
  unfold data_parse. destruct (keywords_for (List.length (lines_of c))) as [ks|] eqn:K; [|discriminate]. destruct (keywords_shape _ _ K) as (_ & LK & N & I & NC & _).
  destruct (read_keywords (lines_of c) ks) as [vs|] eqn:R; [|discriminate].
  destruct (get (combine ks (map VS vs)) "Ncount") as [v|] eqn:G; [|discriminate]. destruct (int_of v) as [n|]; [|discriminate]. intros H M. injection H as <-.
  assert (LV : List.length vs = List.length ks).
  { unfold read_keywords in R. rewrite LK, Nat.ltb_irrefl in R. apply (read_zip_length _ _ _ (eq_sym LK) R). }
  assert (F : map fst (combine ks (map VS vs)) = ks) by (apply map_fst_combine; now rewrite map_length).
  split; [cbn; now rewrite LK|]. split; [cbn; rewrite (set_fst _ _ _ _ G); exact F|]. cbn. apply Forall_forall. intros e Ie.
  apply set_in in Ie as [->|[Ie Ne]]; [reflexivity| |now rewrite F]. destruct e as [k w]. cbn in *. apply in_combine_r in Ie. apply in_map_iff in Ie as (x & <- & Ix). split; [exact Ne|].
  destruct (read_from _ _ _ R x Ix) as (l & Il & ->). eapply from_plain; [apply (proj1 (lines_part [] c l Il))|auto].
Qed.
Lemma pcut_fst m s : m <> "" -> contains m (fst (pcut m s)) = false.
Proof.
  intro H. unfold pcut. destruct (cut m s) as [[b a]|] eqn:E; cbn; [eapply cut_before; eauto|]. now apply cut_none in E.
Qed.
Lemma pcut_part m s : part_of (fst (pcut m s)) s /\ part_of (snd (pcut m s)) s.
Proof.
  unfold pcut. destruct (cut m s) as [[b a]|] eqn:E; cbn.
  - apply cut_some in E. rewrite E. split; [apply part_l|]. exists (b +++ m), "". now rewrite string_app_nil_r, string_app_assoc.
  - split; [apply part_refl|]. exists s, "". now rewrite string_app_nil_r.
Qed.
Lemma data_parts_plain fuel rest ds : data_parts fuel rest = Some ds -> Forall (fun d => contains "end data" d = false) ds.
Proof.
  revert rest ds. induction fuel as [|fuel IH]; intros rest ds H; destruct rest as [|a t]; try (injection H as <-; constructor); [discriminate|].
  remember (String a t) as r. cbn in H. rewrite Heqr in H. rewrite <- Heqr in H. clear Heqr. destruct (pcut "end data" r) as [d r'] eqn:E. destruct (data_parts fuel r') as [ds'|] eqn:D; [|discriminate]. injection H as <-. specialize (IH _ _ D).
  destruct (strip _ =?s ""); [exact IH|]. constructor; [|exact IH]. eapply part_contains; [apply part_strip|]. eapply part_contains; [apply (proj2 (pcut_part "begin data" d))|].
  pose proof (pcut_fst "end data" r ltac:(discriminate)) as Q. now rewrite E in Q.
Qed.
Lemma traverse_in {A B} (f : A -> option B) l r : traverse f l = Some r -> forall y, In y r -> exists x, In x l /\ f x = Some y.
Proof.
  revert r. induction l as [|x t IH]; intros r H y I; cbn in H; [injection H as <-; destruct I|]. destruct (f x) as [z|] eqn:E; [|discriminate].
  destruct (traverse f t) as [zs|]; [|discriminate]. injection H as <-. destruct I as [<-|I]; [exists x; split; [now left|exact E]|]. destruct (IH _ eq_refl y I) as (x' & I' & E'). exists x'. split; [now right|exact E'].
Qed.
Theorem C33_what_is_read_is_well_formed : forall contents f, sim_parse contents = Some f -> text_ok f.
Proof.
  intros c f. unfold sim_parse. destruct (pcut "begin instrument: " c) as [h r1] eqn:E1. destruct (pcut "begin simulation: " r1) as [i r2] eqn:E2.
  destruct (pcut "end instrument" i) as [i' j] eqn:E3. destruct (pcut "end simulation" r2) as [s r3] eqn:E4.
  destruct (data_parts _ r3) as [ds|] eqn:D; [|discriminate]. destruct (header_parse h) eqn:H1; [|discriminate]. destruct (instrument_parse i') eqn:H2; [|discriminate].
  destruct (simulation_parse s) eqn:H3; [|discriminate]. destruct (traverse data_parse ds) as [l|] eqn:H4; [|discriminate]. intro H. injection H as <-.
  pose proof (pcut_fst "begin instrument: " c ltac:(discriminate)) as Q1. rewrite E1 in Q1. pose proof (pcut_fst "begin simulation: " r1 ltac:(discriminate)) as Q2. rewrite E2 in Q2.
  pose proof (pcut_fst "end instrument" i ltac:(discriminate)) as Q3. rewrite E3 in Q3. pose proof (pcut_fst "end simulation" r2 ltac:(discriminate)) as Q4. rewrite E4 in Q4.
  pose proof (proj1 (pcut_part "end instrument" i)) as P3. rewrite E3 in P3. cbn [fst] in *.
  split; [eapply header_parsed; eauto|]. split; [eapply instrument_parsed; eauto; eapply part_contains; eauto|]. split; [eapply simulation_parsed; eauto|].
  cbn. apply Forall_forall. intros d Id. destruct (traverse_in _ _ _ H4 d Id) as (x & Ix & Ex). pose proof (data_parts_plain _ _ _ D) as P. rewrite Forall_forall in P. eapply datum_parsed; eauto.
Qed.
Print Assumptions C33_what_is_read_is_well_formed.
(* Reading any text, writing the result and reading it again gives the same description. *)
Theorem C33_read_write_read : forall contents f, sim_parse contents = Some f -> sim_parse (to_file f) = Some f.
Proof. intros c f H. apply C33_round_trip. eapply C33_what_is_read_is_well_formed; eauto. Qed.
Print Assumptions C33_read_write_read.
(* different descriptions are written differently *)
Theorem C33_text_determines_description : forall f g, text_ok f -> text_ok g -> to_file f = to_file g -> f = g.
Proof. intros f g F G E. apply C33_round_trip in F, G. rewrite E in F. congruence. Qed.
Print Assumptions C33_text_determines_description.

(** * Examples, and descriptions outside the format *)
Definition example_datum : datum :=
  mkDatum (first_keywords ++ second_keywords ++ ["xylimits"; "variables"])
    [("Date", VS "Mon Nov 16 10:51:00 2026"); ("type", VS "array_0d"); ("Source", VS "bt7.instr"); ("component", VS "flux"); ("position", VS "0 0 1.5"); ("title", VS "Single monitor: flux");
     ("Ncount", VI 1000000); ("statistics", VS "None"); ("signal", VS "None"); ("values", VS "1.5e+06 32.1 998"); ("xylimits", VS ""); ("variables", VS "I I_err N")].
Definition example_text (desc name param : string) : simtext :=
  mkText (mkHeader desc "Mon Nov 16" "McStas 3.5") (mkInstrument name "bt7.instr" "bt7.instr" "E(double) n(int)" true true false)
         (mkSim "out/mccode.sim" "McCode with text headers" "http://www.mccode.org" "McStas 3.5" "bt7.instr" 1000000 false true (-5) "out" [param; "n=-2"]) [example_datum; example_datum].
Example example_ok : text_ok (example_text "McStas simulation description file" "bt7" "E=5: hot").
Proof.
  repeat split; try discriminate; repeat constructor; try discriminate.
Qed.
Example example_round : sim_parse (to_file (example_text "McStas simulation description file" "bt7" "E=5: hot")) = Some (example_text "McStas simulation description file" "bt7" "E=5: hot").
Proof. reflexivity. Qed.
(* an empty description or name, or a text with an end marker, is written but cannot be read *)
Theorem C33_empty_name_refuted :
  sim_parse (to_file (example_text "" "bt7" "E=5")) = None /\ sim_parse (to_file (example_text "McStas" "" "E=5")) = None.
Proof. split; reflexivity. Qed.
Print Assumptions C33_empty_name_refuted.
(* a parameter value with the text of the end marker cuts the block off without an error *)
Theorem C33_marker_in_value_refuted :
  exists f g, sim_parse (to_file f) = Some g /\ u_params (x_sim f) = ["title=end simulation now"; "n=-2"] /\ u_params (x_sim g) = ["title="].
Proof. exists (example_text "McStas" "bt7" "title=end simulation now"). eexists. split; [reflexivity|]. split; reflexivity. Qed.
Print Assumptions C33_marker_in_value_refuted.
