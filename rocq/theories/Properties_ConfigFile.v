(** C75: the header configured for the C source *)
From Coq Require Import List String Ascii Bool Arith ZArith Lia.
From Verif Require Import PyStr TextLines Expr Registry DatFile ConfigFile.
From Verif Require Flags InstanceText.
Import InstanceText (newline).
Import ListNotations.
Local Open Scope string_scope.
Local Open Scope list_scope.
Local Open Scope nat_scope.

(** ** what replacing keys means *)
(** a text in pieces: single characters and keys *)
Inductive piece := Char (c : ascii) | Key (k : string).
Definition letters : string := "ABCDEFGHIJKLMNOPQRSTUVWXYZ_".
Definition is_name (k : string) : Prop := forall c, In c (list_ascii_of_string k) -> In c (list_ascii_of_string letters).
Definition key (k : string) : string := ("@MCCODE_" ++ k ++ "@")%string.
Fixpoint show (ps : list piece) : string :=
  match ps with [] => "" | Char c :: t => String c (show t) | Key k :: t => (key k ++ show t)%string end.
Definition begins_key (s : string) : Prop := exists k r, is_name k /\ s = (key k ++ r)%string.
(** keys are found from the left: no key begins at a piece that is a character *)
Inductive leftmost : list piece -> Prop :=
| LNil : leftmost []
| LKey k t : is_name k -> leftmost t -> leftmost (Key k :: t)
| LChar c t : ~ begins_key (String c (show t)) -> leftmost t -> leftmost (Char c :: t).
(** every key gets its value, every character stays *)
Inductive filled (value : string -> string -> Prop) : list piece -> string -> Prop :=
| FNil : filled value [] ""
| FKey k v t u : value k v -> filled value t u -> filled value (Key k :: t) (v ++ u)%string
| FChar c t u : filled value t u -> filled value (Char c :: t) (String c u).

(** ** the search *)
Lemma key_char_spec c : key_char c = true <-> In c (list_ascii_of_string letters).
Proof.
  assert (E : key_char c = existsb (Ascii.eqb c) (list_ascii_of_string letters)) by (destruct c as [[] [] [] [] [] [] [] []]; reflexivity).
  rewrite E, existsb_exists. split.
  - intros (x & I & X). apply Ascii.eqb_eq in X. now subst.
  - intro I. exists c. split; auto. apply Ascii.eqb_refl.
Qed.
Lemma key_char_at : key_char "@" = false.
Proof. reflexivity. Qed.
Lemma run_app k r : is_name k -> run (k ++ String "@" r)%string = (k, String "@" r).
Proof.
  induction k as [|c k IH]; intro H; [reflexivity|]. change ((String c k ++ String "@" r)%string) with (String c (k ++ String "@" r)%string).
  cbn [run]. assert (E : key_char c = true) by (apply key_char_spec, H; now left).
  rewrite E. rewrite IH; [reflexivity|]. intros x I. apply H. now right.
Qed.
Lemma run_back s k t : run s = (k, t) -> is_name k /\ s = (k ++ t)%string.
Proof.
  revert k t. induction s as [|c s IH]; intros k t H; cbn [run] in H.
  - injection H as <- <-. split; [intros x []|reflexivity].
  - destruct (key_char c) eqn:E.
    + destruct (run s) as [k' t'] eqn:R. injection H as <- <-. destruct (IH _ _ eq_refl) as [N ->]. split; [|reflexivity].
      intros x [<-|I]; [now apply key_char_spec|now apply N].
    + injection H as <- <-. split; [intros x []|reflexivity].
Qed.
Lemma key_app k r : (key k ++ r)%string = (key_prefix ++ (k ++ String "@" r))%string.
Proof. unfold key, key_prefix. rewrite !string_app_assoc. reflexivity. Qed.
Lemma match_key_key k r : is_name k -> match_key (key k ++ r) = Some k.
Proof.
  intro N. rewrite key_app. unfold match_key.
  assert (E : startswith key_prefix (key_prefix ++ (k ++ String "@" r))%string = true) by (apply startswith_spec; eauto).
  rewrite E, Flags.drop_app, run_app by assumption. reflexivity.
Qed.
Lemma match_key_some s k : match_key s = Some k -> is_name k /\ exists r, s = (key k ++ r)%string.
Proof.
  unfold match_key. destruct (startswith key_prefix s) eqn:E; [|discriminate]. apply startswith_spec in E as [u ->].
  rewrite Flags.drop_app. destruct (run u) as [k' t] eqn:R. destruct t as [|c t]; [discriminate|].
  destruct (ascii_dec c "@") as [->|]; [|discriminate]. intros [= ->]. destruct (run_back _ _ _ R) as [N ->].
  split; auto. exists t. now rewrite key_app.
Qed.
Lemma match_key_none s : match_key s = None <-> ~ begins_key s.
Proof.
  split.
  - intros H (k & r & N & ->). rewrite match_key_key in H by assumption. discriminate.
  - intro H. destruct (match_key s) eqn:E; auto. exfalso. apply H. destruct (match_key_some _ _ E) as [N [r ->]]. exists s0, r. auto.
Qed.
Lemma name_at k k' r r' : is_name k -> is_name k' -> (key k ++ r)%string = (key k' ++ r')%string -> k = k' /\ r = r'.
Proof.
  intros N N' H. assert (E : k = k').
  { pose proof (match_key_key k r N) as A. rewrite H, match_key_key in A by assumption. congruence. }
  split; auto. subst k'. eapply string_app_inj_l; eauto.
Qed.
Lemma sub_skip f n s r : String.length s = n -> sub f n (s ++ r)%string = sub f 0 r.
Proof. revert s. induction n as [|n IH]; intros [|c s] L; cbn in L; try discriminate; auto. cbn. apply IH. lia. Qed.
Lemma sub_key f k r : is_name k -> sub f 0 (key k ++ r)%string = (do v <- f k ; do t <- sub f 0 r ; Ok (v ++ t)%string).
Proof.
  intro N. pose proof (match_key_key k r N) as M.
  destruct (key k ++ r)%string as [|c u] eqn:E; [unfold key in E; cbn in E; discriminate|].
  cbn [sub]. rewrite M.
  assert (U : u = ("MCCODE_" ++ k ++ "@" ++ r)%string). { unfold key in E. rewrite !string_app_assoc in E. cbn in E. injection E as _ <-. reflexivity. }
  destruct (f k) as [v| |]; cbn [rbind]; auto.
  replace (sub f (String.length key_prefix + String.length k) u) with (sub f 0 r); [reflexivity|].
  rewrite U. replace ("MCCODE_" ++ k ++ "@" ++ r)%string with (("MCCODE_" ++ k ++ "@") ++ r)%string by now rewrite !string_app_assoc.
  symmetry. apply sub_skip. rewrite !string_app_length. cbn. lia.
Qed.
Lemma sub_char f c r : ~ begins_key (String c r) -> sub f 0 (String c r) = (do t <- sub f 0 r ; Ok (String c t)).
Proof. intro H. apply match_key_none in H. cbn [sub]. rewrite H. reflexivity. Qed.

Lemma pieces_exist s : exists ps, leftmost ps /\ show ps = s.
Proof.
  assert (G : forall n s, String.length s <= n -> exists ps, leftmost ps /\ show ps = s).
  { clear s. induction n as [|n IH]; intros s L.
    - destruct s; [|cbn in L; lia]. exists []. split; [constructor|reflexivity].
    - destruct s as [|c s]; [exists []; split; [constructor|reflexivity]|].
      destruct (match_key (String c s)) as [k|] eqn:E.
      + destruct (match_key_some _ _ E) as [N [r R]]. rewrite R in L. destruct (IH r) as (ps & P & S).
        { rewrite string_app_length in L. unfold key in L. cbn in L. lia. }
        exists (Key k :: ps). split; [constructor; auto|]. cbn. now rewrite S.
      + destruct (IH s) as (ps & P & S); [cbn in L; lia|]. exists (Char c :: ps). split; [|cbn; now rewrite S].
        constructor; auto. rewrite S. now apply match_key_none. }
  eapply G. reflexivity.
Qed.
Lemma pieces_one ps : leftmost ps -> forall qs, leftmost qs -> show ps = show qs -> ps = qs.
Proof.
  induction 1 as [|k t N L IH|c t B L IH]; intros qs [|k' t' N' L'|c' t' B' L'] S; cbn in S; try discriminate; auto.
  - destruct (name_at _ _ _ _ N N' S) as [<- E]. f_equal. now apply IH.
  - exfalso. apply B'. rewrite <- S. now exists k, (show t).
  - exfalso. apply B. rewrite S. now exists k', (show t').
  - injection S as <- S. f_equal. now apply IH.
Qed.
Lemma sub_pieces f ps t : leftmost ps -> (sub f 0 (show ps) = Ok t <-> filled (fun k v => f k = Ok v) ps t).
Proof.
  intro L. revert t. induction L as [|k ps N L IH|c ps B L IH]; intro t; cbn [show].
  - split; [intros [= <-]; constructor|inversion 1; reflexivity].
  - rewrite sub_key by assumption. split.
    + destruct (f k) as [v| |] eqn:E; try discriminate. cbn [rbind]. destruct (sub f 0 (show ps)) as [u| |]; try discriminate. cbn [rbind].
      intros [= <-]. constructor; auto. now apply IH.
    + inversion 1 as [|? v ? u V F|]; subst. rewrite V. cbn [rbind]. apply IH in F. rewrite F. reflexivity.
  - rewrite sub_char by assumption. split.
    + destruct (sub f 0 (show ps)) as [u| |]; try discriminate. cbn [rbind]. intros [= <-]. constructor. now apply IH.
    + inversion 1 as [| |? ? u F]; subst. apply IH in F. rewrite F. reflexivity.
Qed.

(* Every text is, in exactly one way, characters and keys found from the left, and the
   result is the text with the value of each key in place of the key and nothing else
   changed; the replacement raises only if looking up some key raises. *)
Theorem C75_keys_are_replaced :
  forall f s, exists ps, leftmost ps /\ show ps = s /\ (forall qs, leftmost qs -> show qs = s -> qs = ps) /\
    forall t, sub f 0 s = Ok t <-> filled (fun k v => f k = Ok v) ps t.
Proof.
  intros f s. destruct (pieces_exist s) as (ps & L & S). exists ps. split; auto. split; auto. split.
  - intros qs Q E. symmetry. apply pieces_one; auto. congruence.
  - intro t. rewrite <- S. now apply sub_pieces.
Qed.
Print Assumptions C75_keys_are_replaced.

(* In particular a text without the beginning of a key is not changed. *)
Theorem C75_other_text_is_kept :
  forall f s, contains "@MCCODE_" s = false -> sub f 0 s = Ok s.
Proof.
  intros f. induction s as [|c s IH]; intro H; [reflexivity|].
  assert (H' : contains "@MCCODE_" s = false).
  { destruct (contains "@MCCODE_" s) eqn:E; auto. apply contains_spec in E as (l & r & ->).
    assert (contains "@MCCODE_" (String c (l ++ "@MCCODE_" ++ r)) = true); [|congruence]. apply contains_spec. exists (String c l), r. reflexivity. }
  rewrite sub_char.
  - rewrite IH by assumption. reflexivity.
  - intros (k & r & N & E). assert (contains "@MCCODE_" (String c s) = true); [|congruence]. apply contains_spec.
    exists "", (k ++ "@" ++ r)%string. rewrite E. unfold key. now rewrite !string_app_assoc.
Qed.
Print Assumptions C75_other_text_is_kept.

(** a text without the sign of keys, then a key, and so on *)
Fixpoint woven (l : list (string * string)) (last : string) : string :=
  match l with [] => last | (a, k) :: t => (a ++ key k ++ woven t last)%string end.
Fixpoint woven_values (g : string -> string) (l : list (string * string)) (last : string) : string :=
  match l with [] => last | (a, k) :: t => (a ++ g k ++ woven_values g t last)%string end.
Lemma sub_plain f a r : has_char "@" a = false -> sub f 0 (a ++ r)%string = (do t <- sub f 0 r ; Ok (a ++ t)%string).
Proof.
  induction a as [|c a IH]; intro H.
  - cbn. destruct (sub f 0 r); reflexivity.
  - cbn [has_char] in H. apply orb_false_iff in H as [C H]. change ((String c a ++ r)%string) with (String c (a ++ r)%string).
    rewrite sub_char.
    + rewrite IH by assumption. destruct (sub f 0 r); reflexivity.
    + intros (k & u & N & E). unfold key in E. rewrite !string_app_assoc in E. cbn in E. injection E as -> _. discriminate.
Qed.
(* A text in which the sign at appears only in keys. *)
Theorem C75_text_with_keys :
  forall g l last, Forall (fun p => has_char "@" (fst p) = false /\ is_name (snd p)) l -> has_char "@" last = false ->
    sub (fun k => Ok (g k)) 0 (woven l last) = Ok (woven_values g l last).
Proof.
  intros g l last F L. induction F as [|[a k] t [A N] F IH]; cbn [woven woven_values].
  - rewrite <- (string_app_nil_r last) at 1. rewrite sub_plain by assumption. cbn. now rewrite string_app_nil_r.
  - cbn [fst snd] in *. rewrite sub_plain by assumption. rewrite sub_key by assumption. rewrite IH. reflexivity.
Qed.
Print Assumptions C75_text_with_keys.
Example C75_text_with_keys_example :
  sub (fun k => Ok ("<" ++ k ++ ">")%string) 0 "a @MCCODE_DATE@ mail@x @MCCODE_@MCCODE_B@" = Ok "a <DATE> mail@x <>MCCODE_B@".
Proof. reflexivity. Qed.

(** ** the value of a key *)
(** what the user's configuration has for a name, the most important first *)
Definition settings (c : conf) (flavor n : string) : list string :=
  flat_map (fun s => match assoc flavor s with Some (Table l) => match assoc n l with Some v => [v] | None => [] end | _ => [] end) c.
Lemma lookup_settings c flavor n v : lookup c flavor n = Ok v -> v = hd_error (settings c flavor n).
Proof.
  induction c as [|s c IH]; cbn [lookup]; [intros [= <-]; reflexivity|]. unfold settings. cbn [flat_map]. fold (settings c flavor n).
  destruct (assoc flavor s) as [[t|l]|]; [discriminate| |exact IH]. destruct (assoc n l) as [u|]; [intros [= <-]; reflexivity|exact IH].
Qed.
Definition tables_only (c : conf) (flavor : string) : Prop := Forall (fun s => forall t, assoc flavor s <> Some (Leaf t)) c.
Lemma lookup_total c flavor n : tables_only c flavor -> exists v, lookup c flavor n = Ok v.
Proof.
  induction 1 as [|s c H _ IH]; cbn [lookup]; [eauto|]. destruct (assoc flavor s) as [[t|l]|] eqn:E; [destruct (H t eq_refl)| |auto]. destruct (assoc n l); eauto.
Qed.
Definition fallback (n : string) : string :=
  if contains "date" n then "1970-01-01" else if (n =?s "version_macro") || contains "number" n then "0" else "{UNKNOWN}".

Section Values.
  Variable parse_version : string -> option (Z * Z * Z).
  Variable version_of : registry -> option string.
  Variable text_of : registry -> string.
  Variable today : string.
  Notation configure := (configure_file parse_version version_of text_of today).

  (** the number of a version: an unreadable one counts as 3.99.999 *)
  Definition numbers (v : string) : Z * Z * Z := match parse_version v with Some n => n | None => (3, 99, 999)%Z end.
  (** what the registry says about itself *)
  Definition registry_value (r : registry) (n : string) : option string :=
    match version_of r with
    | None => None
    | Some v => assoc n [("string", no_newlines (text_of r)); ("version", v);
                         ("version_macro", let '(a, b, c) := numbers v in str_Z (100000 * a + 1000 * b + c)); ("date", today)]
    end.
  Definition key_text (c : conf) (r : registry) (flavor n : string) : string :=
    match (if r_name r =?s flavor then registry_value r n else None) with
    | Some v => v
    | None => match settings c flavor n with v :: _ => v | [] => fallback n end
    end.
  (** the registries that know a file; those of them that list it once *)
  Definition first_that_knows (regs : list registry) (file : string) (r : registry) : Prop :=
    exists before after, regs = before ++ r :: after /\ r_known r file None false = Some true /\
      Forall (fun x => r_known x file None false = Some false) before.
  Definition only_unique (regs : list registry) (file : string) (r : registry) : Prop :=
    exists before after, regs = before ++ r :: after /\ unique r file = Some true /\
      Forall (fun x => unique x file = Some false) (before ++ after).

  Lemma first_known_spec regs file r : first_known regs file None false = Some (Some r) <-> first_that_knows regs file r.
  Proof.
    induction regs as [|x regs IH]; cbn [first_known]; split.
    - discriminate.
    - intros (b & a & E & _). destruct b; discriminate.
    - destruct (r_known x file None false) as [[]|] eqn:K; try discriminate.
      + intros [= <-]. exists [], regs. auto.
      + intro H. apply IH in H as (b & a & -> & K' & F). exists (x :: b), a. split; auto.
    - intros (b & a & E & K & F). destruct b as [|y b]; injection E as -> ->.
      + rewrite K. reflexivity.
      + inversion F as [|? ? K' F']; subst. rewrite K'. apply IH. exists b, a. auto.
  Qed.
  Lemma uniques_nil regs file : uniques regs file = Some [] <-> Forall (fun x => unique x file = Some false) regs.
  Proof.
    induction regs as [|x regs IH]; cbn [uniques]; split; auto.
    - destruct (unique x file) as [[]|] eqn:U; try discriminate; destruct (uniques regs file); try discriminate.
      intros [= ->]. constructor; auto. now apply IH.
    - inversion 1 as [|? ? U F]; subst. rewrite U. apply IH in F. now rewrite F.
  Qed.
  Lemma uniques_one regs file r : uniques regs file = Some [r] <-> only_unique regs file r.
  Proof.
    induction regs as [|x regs IH]; cbn [uniques]; split.
    - discriminate.
    - intros (b & a & E & _). destruct b; discriminate.
    - destruct (unique x file) as [[]|] eqn:U; try discriminate; destruct (uniques regs file) as [l|] eqn:R; try discriminate.
      + intros [= -> ->]. exists [], regs. split; auto. split; auto. now apply uniques_nil.
      + intros [= ->]. destruct IH as [IH _]. destruct (IH eq_refl) as (b & a & -> & V & F). exists (x :: b), a. split; auto. split; auto. constructor; auto.
    - intros (b & a & E & U & F). destruct b as [|y b]; injection E as -> ->.
      + rewrite U. cbn [app] in F. apply uniques_nil in F. now rewrite F.
      + cbn [app] in F. inversion F as [|? ? V F']; subst. rewrite V.
        assert (H : uniques (b ++ r :: a) file = Some [r]) by (apply IH; exists b, a; auto). now rewrite H.
  Qed.
  Lemma defaults_spec c r project c' : registry_defaults parse_version version_of text_of today c r project = Ok c' ->
    exists v, version_of r = Some v /\
      c' = [(project, Table [("string", no_newlines (text_of r)); ("version", v);
                             ("version_macro", let '(a, b, c) := numbers v in str_Z (100000 * a + 1000 * b + c)); ("date", today)])] :: c.
  Proof.
    unfold registry_defaults, version_macro. destruct (version_of r) as [v|]; [|discriminate]. intro H. exists v. split; auto. unfold numbers.
    destruct (parse_version v) as [[[a b] d]|]; cbn [rbind] in H; injection H as <-; cbn [str_opt]; [|reflexivity].
    replace (100000 * a + 1000 * b + d)%Z with (macro_of (a, b, d)) by (unfold macro_of; lia). reflexivity.
  Qed.
  Lemma replacement_spec c r c' flavor k v : registry_defaults parse_version version_of text_of today c r (r_name r) = Ok c' ->
    replacement c' flavor k = Ok v -> v = key_text c r flavor (PyStr.lower k).
  Proof.
    intros D H. destruct (defaults_spec _ _ _ _ D) as (w & W & ->). unfold replacement in H.
    set (n := PyStr.lower k) in *. unfold key_text, registry_value. rewrite W. cbn [lookup] in H. unfold assoc at 1 in H. cbn [find fst] in H.
    destruct (r_name r =?s flavor) eqn:E; cbn [option_map snd] in H.
    - destruct (assoc n _) as [u|]; cbn [rbind] in H; [congruence|].
      destruct (lookup c flavor n) as [u| |] eqn:L; try discriminate. apply lookup_settings in L. cbn [rbind] in H. injection H as <-.
      rewrite L. destruct (settings c flavor n); reflexivity.
    - destruct (lookup c flavor n) as [u| |] eqn:L; try discriminate. apply lookup_settings in L. cbn [rbind] in H. injection H as <-.
      rewrite L. destruct (settings c flavor n); reflexivity.
  Qed.
End Values.
Lemma filled_impl (P Q : string -> string -> Prop) ps t : (forall k v, P k v -> Q k v) -> filled P ps t -> filled Q ps t.
Proof. intros H F. induction F; constructor; auto. Qed.

(* What is written: the file of the first registry that knows it, between two lines that name
   it, each key replaced by what the one registry that lists the file once says about itself
   if it is called like the flavor, else by what the user configured, else by a fallback. *)
Theorem C75_configured_header :
  forall parse_version version_of text_of today regs c filename flavor o c',
    configure_file parse_version version_of text_of today regs c filename flavor = Ok (o, c') ->
    exists r0 r p contents ps t,
      first_that_knows regs filename r0 /\ r_contents r0 filename None = Some contents /\ r_path r0 filename None = Some (Some p) /\
      only_unique regs filename r /\ version_of r <> None /\
      leftmost ps /\ show ps = contents /\
      filled (fun k v => v = key_text parse_version version_of text_of today c r flavor (PyStr.lower k)) ps t /\
      o = ("/* embedding configured version of file """ ++ p ++ """ */" ++ newline ++ t ++ newline ++
           "/* end of configured version of file """ ++ p ++ """ */" ++ newline)%string.
Proof.
  intros parse_version version_of text_of today regs c filename flavor o c' H. unfold configure_file in H.
  destruct (endswith ".h.in" filename); [|discriminate]. cbn [negb] in H. unfold read_file in H.
  destruct (first_known regs filename None false) as [[r0|]|] eqn:K; try discriminate. apply first_known_spec in K.
  destruct (r_path r0 filename None) as [[p|]|] eqn:P; try discriminate. destruct (r_contents r0 filename None) as [s|] eqn:S; try discriminate.
  cbn [rbind] in H. destruct (uniques regs filename) as [[|r [|]]|] eqn:U; try discriminate. apply uniques_one in U.
  destruct (registry_defaults parse_version version_of text_of today c r (r_name r)) as [c1| |] eqn:D; try discriminate. cbn [rbind] in H.
  destruct (sub (replacement c1 flavor) 0 s) as [t| |] eqn:T; try discriminate. cbn [rbind] in H.
  match type of H with Ok (?x, _) = _ => set (X := x) in H end. injection H as <- <-. unfold X.
  destruct (pieces_exist s) as (ps & L & E). rewrite <- E in T. apply sub_pieces in T; auto.
  exists r0, r, p, s, ps, t. repeat (split; [now auto|]). split.
  { destruct (defaults_spec _ _ _ _ _ _ _ _ D) as (v & V & _). congruence. }
  split; auto. split; auto. split.
  - eapply filled_impl; [|exact T]. intros k v. apply (replacement_spec _ _ _ _ _ _ _ _ _ _ D).
  - unfold out, quoted. rewrite !string_app_assoc. reflexivity.
Qed.
Print Assumptions C75_configured_header.

Lemma replacement_total parse_version version_of text_of today c r c' flavor k :
  registry_defaults parse_version version_of text_of today c r (r_name r) = Ok c' -> tables_only c flavor -> exists v, replacement c' flavor k = Ok v.
Proof.
  intros D T. destruct (defaults_spec _ _ _ _ _ _ _ _ D) as (w & W & ->).
  assert (T' : tables_only ([(r_name r, Table [("string", no_newlines (text_of r)); ("version", w);
                 ("version_macro", let '(a, b, c) := numbers parse_version w in str_Z (100000 * a + 1000 * b + c)); ("date", today)])] :: c) flavor).
  { constructor; auto. intros t. unfold assoc. cbn [find fst]. destruct (r_name r =?s flavor); cbn; discriminate. }
  destruct (lookup_total _ _ (PyStr.lower k) T') as [v V]. unfold replacement. rewrite V. cbn [rbind]. eauto.
Qed.
(* The header is written whenever exactly one registry lists the file once, the first
   registry that knows the file has it, the version is a text and the flavor is a table. *)
Theorem C75_header_is_written :
  forall parse_version version_of text_of today regs c filename flavor r0 r contents p,
    endswith ".h.in" filename = true -> first_that_knows regs filename r0 -> r_contents r0 filename None = Some contents ->
    r_path r0 filename None = Some (Some p) -> only_unique regs filename r -> version_of r <> None -> tables_only c flavor ->
    exists o c', configure_file parse_version version_of text_of today regs c filename flavor = Ok (o, c').
Proof.
  intros parse_version version_of text_of today regs c filename flavor r0 r s p E K S P U V T. unfold configure_file, read_file.
  apply first_known_spec in K. apply uniques_one in U. rewrite E, K, P, S. cbn [negb rbind]. rewrite U.
  destruct (registry_defaults parse_version version_of text_of today c r (r_name r)) as [c1| |] eqn:D.
  - cbn [rbind]. assert (A : exists t, sub (replacement c1 flavor) 0 s = Ok t).
    { destruct (pieces_exist s) as (ps & L & <-). assert (F : exists t, filled (fun k v => replacement c1 flavor k = Ok v) ps t).
      { clear -D T. induction ps as [|[a|k] ps [t IH]]; [eexists; constructor| |].
        - eexists. constructor. eassumption.
        - destruct (replacement_total _ _ _ _ _ _ _ flavor k D T) as [v Hv]. eexists. constructor; eassumption. }
      destruct F as [t F]. exists t. now apply sub_pieces. }
    destruct A as [t ->]. cbn [rbind]. eauto.
  - exfalso. unfold registry_defaults, version_macro in D. destruct (version_of r); [|congruence]. destruct (parse_version s0) as [n|]; discriminate.
  - exfalso. unfold registry_defaults, version_macro in D. destruct (version_of r); [|congruence]. destruct (parse_version s0) as [n|]; discriminate.
Qed.
Print Assumptions C75_header_is_written.

(* Versions with a minor number below 100 and a micro number below 1000 keep their order, and
   a version that cannot be read counts above every readable 3.x and below 4. *)
Theorem C75_macro_keeps_order :
  forall a b c a' b' c', (0 <= b < 100)%Z -> (0 <= c < 1000)%Z -> (0 <= b' < 100)%Z -> (0 <= c' < 1000)%Z ->
    ((macro_of (a, b, c) < macro_of (a', b', c'))%Z <-> (a < a' \/ (a = a' /\ (b < b' \/ (b = b' /\ c < c'))))%Z).
Proof. intros. unfold macro_of. split; intro; nia. Qed.
Print Assumptions C75_macro_keeps_order.
(* A minor number of 100 or more makes two versions change places. *)
Theorem C75_macro_order_refuted :
  ~ forall a b c a' b' c', (0 <= a -> 0 <= b -> 0 <= c -> 0 <= a' -> 0 <= b' -> 0 <= c' -> a < a' -> macro_of (a, b, c) < macro_of (a', b', c'))%Z.
Proof. intro H. specialize (H 3%Z 100%Z 1%Z 4%Z 0%Z 0%Z). cbv in H. assert (X : Gt = Lt) by (apply H; discriminate || reflexivity). discriminate. Qed.
Print Assumptions C75_macro_order_refuted.

(** ** several translations in one session *)
Lemma sub_ext f g : (forall k, f k = g k) -> forall s n, sub f n s = sub g n s.
Proof.
  intros E s. induction s as [|c s IH]; intros n; cbn [sub]; auto. destruct n as [|n]; auto.
  destruct (match_key (String c s)) as [k|]; [rewrite E|]; rewrite IH; auto.
Qed.
Lemma lookup_one p l c flavor n :
  lookup ([(p, Table l)] :: c) flavor n = if p =?s flavor then match assoc n l with Some v => Ok (Some v) | None => lookup c flavor n end else lookup c flavor n.
Proof. cbn [lookup]. unfold assoc at 1. cbn [find fst]. destruct (p =?s flavor); reflexivity. Qed.
(* A translation made before in the same session does not change the header, unless its
   registry is called like the flavor and the registry of the new one is not. *)
Theorem C75_earlier_translation :
  forall parse_version version_of text_of today1 today2 regs1 regs2 c file1 file2 flavor1 flavor2 o1 c1 o2 c2 r1 r2,
    configure_file parse_version version_of text_of today1 regs1 c file1 flavor1 = Ok (o1, c1) -> only_unique regs1 file1 r1 -> only_unique regs2 file2 r2 ->
    (r_name r1 = flavor2 -> r_name r2 = flavor2) ->
    configure_file parse_version version_of text_of today2 regs2 c1 file2 flavor2 = Ok (o2, c2) ->
    exists c2', configure_file parse_version version_of text_of today2 regs2 c file2 flavor2 = Ok (o2, c2').
Proof.
  intros pv vo tx d1 d2 regs1 regs2 c file1 file2 flavor1 flavor2 o1 c1 o2 c2 r1 r2 H1 U1 U2 N H2.
  apply uniques_one in U1. apply uniques_one in U2. unfold configure_file in *.
  destruct (endswith ".h.in" file1); [|discriminate]. destruct (endswith ".h.in" file2); [|discriminate]. cbn [negb] in *.
  destruct (read_file regs1 file1) as [[p1 s1]| |]; try discriminate. destruct (read_file regs2 file2) as [[p2 s2]| |]; try discriminate.
  cbn [rbind] in *. rewrite U1 in H1. rewrite U2 in *.
  destruct (registry_defaults pv vo tx d1 c r1 (r_name r1)) as [c1'| |] eqn:D1; try discriminate. cbn [rbind] in H1.
  destruct (sub (replacement c1' flavor1) 0 s1) as [t1| |]; try discriminate. cbn [rbind] in H1.
  assert (c1' = c1) by (match type of H1 with Ok (?x, _) = _ => set (X := x) in H1 end; now injection H1). subst c1'. clear H1.
  destruct (defaults_spec _ _ _ _ _ _ _ _ D1) as (v1 & V1 & E1). clear D1.
  unfold registry_defaults in *. destruct (version_macro pv (vo r2)) as [m| |]; try discriminate. cbn [rbind] in *.
  set (T2 := Table _) in *. cbn [rbind] in *.
  assert (EX : forall k, replacement ([(r_name r2, T2)] :: c1) flavor2 k = replacement ([(r_name r2, T2)] :: c) flavor2 k).
  { intro k. unfold replacement. set (n := PyStr.lower k).
    assert (L : lookup ([(r_name r2, T2)] :: c1) flavor2 n = lookup ([(r_name r2, T2)] :: c) flavor2 n); [|now rewrite L].
    subst c1. unfold T2. rewrite !lookup_one.
    destruct (r_name r2 =?s flavor2) eqn:E2.
    - destruct (assoc n [("string", no_newlines (tx r2)); _; _; _]) as [u|] eqn:A; auto.
      destruct (r_name r1 =?s flavor2); auto. unfold assoc in *. cbn [find fst] in *.
      destruct ("string" =?s n); [discriminate|]. destruct ("version" =?s n); [discriminate|]. destruct ("version_macro" =?s n); [discriminate|].
      destruct ("date" =?s n); [discriminate|reflexivity].
    - destruct (r_name r1 =?s flavor2) eqn:E3; auto. apply String.eqb_eq in E3. apply String.eqb_neq in E2. now apply N in E3. }
  rewrite (sub_ext _ _ EX) in H2. destruct (sub (replacement ([(r_name r2, T2)] :: c) flavor2) 0 s2) as [t2| |]; try discriminate. cbn [rbind] in *.
  match type of H2 with Ok (?x, _) = _ => set (X := x) in * end. injection H2 as <- _. eauto.
Qed.
Print Assumptions C75_earlier_translation.

(* A file that is embedded stands unchanged between two lines that name it, and it is the
   file of the first registry that knows its name. *)
Theorem C75_embedded_file :
  forall regs filename o, embed_file regs filename = Ok o ->
    exists r p contents, first_that_knows regs filename r /\ r_contents r filename None = Some contents /\ r_path r filename None = Some (Some p) /\
      o = ("/* embedding file """ ++ p ++ """ */" ++ newline ++ contents ++ "/* end of file """ ++ p ++ """ */" ++ newline)%string.
Proof.
  intros regs filename o H. unfold embed_file, read_file in H.
  destruct (first_known regs filename None false) as [[r|]|] eqn:K; try discriminate. apply first_known_spec in K.
  destruct (r_path r filename None) as [[p|]|] eqn:P; try discriminate. destruct (r_contents r filename None) as [s|] eqn:S; try discriminate.
  cbn [rbind] in H. match type of H with Ok ?x = _ => set (X := x) in H end. injection H as <-. unfold X.
  exists r, p, s. repeat (split; [now auto|]). unfold out, quoted. rewrite !string_app_assoc. reflexivity.
Qed.
Print Assumptions C75_embedded_file.

(** ** examples and findings *)
Definition header : string := "#define V ""@MCCODE_VERSION@"" @MCCODE_VERSION_MACRO@ @MCCODE_PARTICLE@ @MCCODE_DATE@".
Definition named_registry (n : string) (fs : list (string * string)) : registry := mkReg n 0 (Remote fs).
Definition the_version (r : registry) : option string := Some "v3.5.24".
Definition parsed (s : string) : option (Z * Z * Z) := if s =?s "v3.5.24" then Some (3, 5, 24)%Z else None.
Definition the_text (r : registry) : string := r_name r.
Definition user : conf := [[("mcstas", Table [("particle", "neutron")])]].
Definition in_libc := [named_registry "mcstas" []; named_registry "libc" [("share/mccode-r.h.in", header)]].
Definition in_mcstas := [named_registry "mcstas" [("share/mccode-r.h.in", header)]; named_registry "libc" []].
Notation example_configure := (configure_file parsed the_version the_text "2026-01-02").
Example C75_configured_header_example :
  exists c', example_configure in_mcstas user "mccode-r.h.in" "mcstas" =
    Ok (("/* embedding configured version of file ""share/mccode-r.h.in"" */" ++ newline ++
         "#define V ""v3.5.24"" 305024 neutron 2026-01-02" ++ newline ++
         "/* end of configured version of file ""share/mccode-r.h.in"" */" ++ newline)%string, c').
Proof. eexists. vm_compute. reflexivity. Qed.
Lemma libc_header : exists c', example_configure in_libc user "mccode-r.h.in" "mcstas" =
    Ok (("/* embedding configured version of file ""share/mccode-r.h.in"" */" ++ newline ++
         "#define V ""{UNKNOWN}"" 0 neutron 1970-01-01" ++ newline ++
         "/* end of configured version of file ""share/mccode-r.h.in"" */" ++ newline)%string, c').
Proof. eexists. vm_compute. reflexivity. Qed.
Example C75_earlier_translation_example :
  exists o1 c1 o2 c2, example_configure in_libc user "mccode-r.h.in" "mcstas" = Ok (o1, c1) /\ example_configure in_mcstas c1 "mccode-r.h.in" "mcstas" = Ok (o2, c2) /\
    exists r1 r2, only_unique in_libc "mccode-r.h.in" r1 /\ only_unique in_mcstas "mccode-r.h.in" r2 /\ (r_name r1 = "mcstas" -> r_name r2 = "mcstas").
Proof.
  do 4 eexists. split; [vm_compute; reflexivity|]. split; [vm_compute; reflexivity|].
  exists (named_registry "libc" [("share/mccode-r.h.in", header)]), (named_registry "mcstas" [("share/mccode-r.h.in", header)]).
  split; [now apply uniques_one|]. split; [now apply uniques_one|discriminate].
Qed.

(* The registry that has the header is called libc, the keys are looked up under mcstas:
   the header of a translated instrument has no version, the number 0 and the date 1970-01-01. *)
Theorem C75_version_in_the_header_refuted :
  ~ forall parse_version version_of text_of today regs c filename flavor o c' r v,
      configure_file parse_version version_of text_of today regs c filename flavor = Ok (o, c') -> only_unique regs filename r ->
      r_contents r filename None = Some (key "VERSION") -> version_of r = Some v -> contains v o = true.
Proof.
  intro H. destruct (configure_file parsed the_version the_text "" [named_registry "libc" [("a.h.in", key "VERSION")]] [] "a.h.in" "mcstas") as [[o c']| |] eqn:E;
    [|vm_compute in E; discriminate..].
  specialize (H parsed the_version the_text "" _ [] _ _ o c' (named_registry "libc" [("a.h.in", key "VERSION")]) "v3.5.24" E).
  assert (X : contains "v3.5.24" o = true) by (apply H; [now apply uniques_one|reflexivity|reflexivity]).
  vm_compute in E. injection E as <- _. vm_compute in X. discriminate.
Qed.
Print Assumptions C75_version_in_the_header_refuted.
(* A copy of the header in a directory that is searched first does not replace the one of the
   library: with two registries that have it the translation ends with an error. *)
Theorem C75_own_header_refuted :
  ~ forall parse_version version_of text_of today regs c filename flavor o c' r s,
      configure_file parse_version version_of text_of today regs c filename flavor = Ok (o, c') ->
      r_known r filename None false = Some true -> r_contents r filename None = Some s ->
      exists o' c'', configure_file parse_version version_of text_of today (r :: regs) c filename flavor = Ok (o', c'').
Proof.
  intro H. destruct (example_configure in_libc user "mccode-r.h.in" "mcstas") as [[o c']| |] eqn:E; [|vm_compute in E; discriminate..].
  destruct (H parsed the_version the_text "2026-01-02" _ _ _ _ o c' (mkReg "own" 10 (Local [(["mccode-r.h.in"], Some "x")])) "x" E eq_refl eq_refl) as (o' & c'' & X).
  vm_compute in X. discriminate.
Qed.
Print Assumptions C75_own_header_refuted.
(* The text may come from one registry and the version from another: a directory with two
   copies of the header is the first that knows it, but only the library lists it once. *)
Theorem C75_version_of_the_text_refuted :
  ~ forall parse_version version_of text_of today regs c filename flavor o c' r r0,
      configure_file parse_version version_of text_of today regs c filename flavor = Ok (o, c') ->
      first_that_knows regs filename r0 -> only_unique regs filename r -> r = r0.
Proof.
  intro H. set (own := mkReg "own" 10 (Local [(["mccode-r.h.in"], Some header); (["old"; "mccode-r.h.in"], Some "y")])).
  destruct (example_configure (own :: in_mcstas) user "mccode-r.h.in" "mcstas") as [[o c']| |] eqn:E; [|vm_compute in E; discriminate..].
  assert (X : named_registry "mcstas" [("share/mccode-r.h.in", header)] = own); [|discriminate].
  eapply H; [exact E|now apply first_known_spec|now apply uniques_one].
Qed.
Print Assumptions C75_version_of_the_text_refuted.
(* The values of a registry called mcstas stay in the configuration: a later translation with
   another library gets the version of the earlier one. *)
Theorem C75_earlier_translation_refuted :
  ~ forall parse_version version_of text_of today regs1 regs2 c filename flavor o1 c1 o2 c2 o2' c2',
      configure_file parse_version version_of text_of today regs1 c filename flavor = Ok (o1, c1) ->
      configure_file parse_version version_of text_of today regs2 c1 filename flavor = Ok (o2, c2) ->
      configure_file parse_version version_of text_of today regs2 c filename flavor = Ok (o2', c2') -> o2 = o2'.
Proof.
  intro H. destruct (example_configure in_mcstas user "mccode-r.h.in" "mcstas") as [[o1 c1]| |] eqn:E1; [|vm_compute in E1; discriminate..].
  destruct (example_configure in_libc c1 "mccode-r.h.in" "mcstas") as [[o2 c2]| |] eqn:E2.
  - destruct libc_header as [c2' E3]. pose proof (H _ _ _ _ _ _ _ _ _ _ _ _ _ _ _ E1 E2 E3) as X.
    vm_compute in E1. injection E1 as _ <-. vm_compute in E2. injection E2 as <- _. vm_compute in X. discriminate.
  - vm_compute in E1. injection E1 as _ <-. vm_compute in E2. discriminate.
  - vm_compute in E1. injection E1 as _ <-. vm_compute in E2. discriminate.
Qed.
Print Assumptions C75_earlier_translation_refuted.
Example C75_keys_are_replaced_example :
  leftmost [Char "@"; Key "A_B"; Char "@"] /\ show [Char "@"; Key "A_B"; Char "@"] = "@@MCCODE_A_B@@" /\
  filled (fun k v => replacement [] "mcstas" k = Ok v) [Char "@"; Key "A_B"; Char "@"] "@{UNKNOWN}@".
Proof.
  repeat split.
  - constructor; [apply match_key_none; reflexivity|]. constructor.
    + intros c I. apply key_char_spec. repeat (destruct I as [<-|I]; [reflexivity|]). destruct I.
    + constructor; [apply match_key_none; reflexivity|constructor].
  - constructor. change "{UNKNOWN}@"%string with ("{UNKNOWN}" ++ "@")%string. repeat constructor.
Qed.
Example C75_other_text_is_kept_example : contains "@MCCODE_" "a@MCCODE b@" = false.
Proof. reflexivity. Qed.
Example C75_header_is_written_example :
  first_that_knows in_libc "mccode-r.h.in" (named_registry "libc" [("share/mccode-r.h.in", header)]) /\
  only_unique in_libc "mccode-r.h.in" (named_registry "libc" [("share/mccode-r.h.in", header)]) /\ tables_only user "mcstas" /\
  r_contents (named_registry "libc" [("share/mccode-r.h.in", header)]) "mccode-r.h.in" None = Some header.
Proof.
  split; [now apply first_known_spec|]. split; [now apply uniques_one|]. split; [|reflexivity].
  constructor; [intros t; discriminate|constructor].
Qed.
Example C75_macro_example : macro_of (3, 5, 24)%Z = 305024%Z /\ macro_of (3, 99, 999)%Z = 399999%Z.
Proof. split; reflexivity. Qed.
Example C75_embedded_file_example :
  embed_file in_libc "mccode-r.h.in" = Ok ("/* embedding file ""share/mccode-r.h.in"" */" ++ newline ++ header ++ "/* end of file ""share/mccode-r.h.in"" */" ++ newline)%string.
Proof. reflexivity. Qed.

(** ** parts of the above on their own *)
Lemma no_newlines_list s : list_ascii_of_string (no_newlines s) = filter (fun c => negb (Ascii.eqb c (ascii_of_nat 10))) (list_ascii_of_string s).
Proof.
  induction s as [|c s IH]; [reflexivity|]. cbn [no_newlines list_ascii_of_string filter]. destruct (ascii_dec c (ascii_of_nat 10)) as [->|N].
  - rewrite Ascii.eqb_refl. exact IH.
  - apply Ascii.eqb_neq in N. rewrite N. cbn. now rewrite IH.
Qed.
(* The text of the registry goes in with every line end taken out and nothing else changed; it is
   what the project has for STRING, whatever was configured before. *)
Theorem C75_registry_text_is_one_line :
  forall parse_version version_of text_of today c r project c',
    registry_defaults parse_version version_of text_of today c r project = Ok c' ->
    exists t rest, settings c' project "string" = t :: rest /\
      list_ascii_of_string t = filter (fun a => negb (Ascii.eqb a (ascii_of_nat 10))) (list_ascii_of_string (text_of r)).
Proof.
  intros pv vo tx today c r project c' H. unfold registry_defaults in H. destruct (version_macro pv (vo r)) as [m| |]; try discriminate. cbn [rbind] in H. injection H as <-.
  eexists _, _. split; [|apply no_newlines_list]. unfold settings. cbn [flat_map]. unfold assoc at 1. cbn [find fst snd option_map]. rewrite String.eqb_refl. reflexivity.
Qed.
Print Assumptions C75_registry_text_is_one_line.
Example C75_registry_text_is_one_line_example :
  exists c', registry_defaults parsed the_version (fun _ => ("a" ++ newline ++ "b" ++ newline ++ "c")%string) "" user (named_registry "mcstas" []) "mcstas" = Ok c' /\
    hd "" (settings c' "mcstas" "string") = "abc".
Proof. eexists. split; [vm_compute; reflexivity|reflexivity]. Qed.
Lemma filter_single {A} (f : A -> bool) l : (List.length (filter f l) =? 1) = true <-> exists l1 x l2, l = l1 ++ x :: l2 /\ f x = true /\ Forall (fun y => f y = false) (l1 ++ l2).
Proof.
  rewrite Nat.eqb_eq. split.
  - induction l as [|a l IH]; cbn; [discriminate|]. destruct (f a) eqn:E; cbn; intro H.
    + exists [], a, l. split; [reflexivity|]. split; auto. cbn. apply Forall_forall. intros y I. destruct (f y) eqn:F; auto. exfalso.
      assert (In y (filter f l)) by now apply filter_In. destruct (filter f l); [contradiction|cbn in H; lia].
    + destruct (IH H) as (l1 & x & l2 & -> & X & F). exists (a :: l1), x, l2. repeat split; auto. cbn. now constructor.
  - intros (l1 & x & l2 & -> & X & F). apply Forall_app in F as [F1 F2]. rewrite filter_app. cbn. rewrite X.
    assert (N : forall l, Forall (fun y => f y = false) l -> filter f l = []) by (induction 1 as [|y l Y _ IHl]; cbn; [|rewrite Y]; auto).
    rewrite (N l1 F1), (N l2 F2). reflexivity.
Qed.
(* A remote registry counts a file as its only one where exactly one entry of its list has the
   name in it; a directory, where exactly one path below it ends in the parts of the name. *)
Theorem C75_unique_means_one :
  forall r name,
    match r_kind r with
    | Remote fs => unique r name = Some true <->
        exists l1 x l2, map fst fs = l1 ++ x :: l2 /\ contains name x = true /\ Forall (fun y => contains name y = false) (l1 ++ l2)
    | Local es => globbable name = true -> (unique r name = Some true <->
        exists l1 dir l2, map fst es = l1 ++ (dir ++ parts name) :: l2 /\ Forall (fun y => ~ exists d, y = d ++ parts name) (l1 ++ l2))
    | Memory _ => unique r name <> Some true
    end.
Proof.
  intros [n p [fs|es|ms]] name; cbn [r_kind].
  - unfold unique. cbn [r_kind]. pose proof (filter_single (fun x => contains name x) (map fst fs)) as F. split; [intros [= H]; now apply F|intro H; f_equal; now apply F].
  - intro G. unfold unique. cbn [r_kind]. unfold glob_all. rewrite G. cbn [option_map].
    assert (T : forall e, tail_match (parts name) e = true <-> exists d, e = d ++ parts name).
    { intro e. unfold tail_match. destruct (list_eq_dec _ _ _) as [E|E].
      - split; [|auto]. intros _. exists (firstn (List.length e - List.length (parts name)) e). rewrite <- E at 2. symmetry. apply firstn_skipn.
      - split; [discriminate|]. intros [d ->]. exfalso. apply E. rewrite app_length. replace (List.length d + List.length (parts name) - List.length (parts name)) with (List.length d) by lia.
        rewrite skipn_app, skipn_all, Nat.sub_diag. reflexivity. }
    split.
    + intros [= H]. apply filter_single in H as (l1 & x & l2 & E & X & F). apply T in X as [d ->]. exists l1, d, l2. split; [exact E|].
      eapply Forall_impl; [|exact F]. cbn. intros y Y D. apply T in D. congruence.
    + intros (l1 & d & l2 & E & F). f_equal. apply filter_single. exists l1, (d ++ parts name), l2. split; [exact E|]. split; [apply T; eauto|].
      eapply Forall_impl; [|exact F]. cbn. intros y Y. destruct (tail_match (parts name) y) eqn:Z; auto. exfalso. now apply Y, T.
  - unfold unique. cbn. discriminate.
Qed.
Print Assumptions C75_unique_means_one.
Example C75_unique_means_one_example :
  unique (named_registry "a" [("share/x.h.in", "1"); ("old/x.h.in", "2")]) "x.h.in" = Some false /\
  unique (named_registry "a" [("share/x.h.in", "1"); ("old/x.h", "2")]) "x.h.in" = Some true /\
  unique (mkReg "own" 10 (Local [(["x.h.in"], Some "x"); (["old"; "x.h.in"], Some "y")])) "x.h.in" = Some false.
Proof. repeat split; reflexivity. Qed.
