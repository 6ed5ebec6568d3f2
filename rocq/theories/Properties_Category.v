(** C82: the category of a component and the instances of a category. *)
From Coq Require Import List String Ascii Bool Arith ZArith Lia.
From Verif Require Import PyStr TextLines Expr Registry Properties_Registry CompParam Category.
Import ListNotations.
Local Open Scope string_scope.
Local Open Scope list_scope.
Local Open Scope nat_scope.

Section Props.
  Variable root : registry -> string.
  Variable parse : string -> option cfile.

(** the registries have the definition of [name], by [r], and it says [f] *)
Definition read_by (regs : list registry) (name : string) (r : registry) (f : cfile) : Prop :=
  first_known regs name (Some ".comp") true = Some (Some r)
  /\ exists text, r_contents r name (Some ".comp") = Some text /\ parse text = Some f.
Lemma read_contents regs name r f : read_by regs name r f ->
  exists text, reader_contents regs None name (Some ".comp") true = Some text /\ parse text = Some f.
Proof. intros (K & text & C & P). exists text. unfold reader_contents, reader_get. cbn [selected]. now rewrite K. Qed.
Definition quoted (s : string) : string := (String """" (s +++ """"))%string.
Lemma inner_quoted s : inner (quoted s) = s.
Proof.
  unfold inner, quoted. cbn [String.length String.substring]. rewrite string_app_length. cbn [String.length].
  replace (S (String.length s + 1) - 2) with (String.length s) by lia.
  induction s as [|c s IH]; [reflexivity|]. cbn. now rewrite IH.
Qed.

(** A category in quotation marks is the category, wherever the file is. *)
Theorem C82_stated : forall regs name r c n, read_by regs name r (mkFile None (Some (CatText (quoted c)))) -> category_of root parse regs (S n) name = Ok c.
Proof.
  intros regs name r c n R. destruct (read_contents _ _ _ _ R) as (text & C & P). cbn [category_of]. rewrite C, P. cbn [f_copy f_category read_category]. now rewrite inner_quoted.
Qed.
(** A component made with COPY has its own category if one is stated and that of the original if
    not, wherever its file is. *)
Theorem C82_copy : forall regs name r o own n x, read_by regs name r (mkFile (Some o) (option_map (fun c => CatText (quoted c)) own)) ->
  category_of root parse regs n o = Ok x ->
  category_of root parse regs (S n) name = Ok match own with Some c => c | None => x end.
Proof.
  intros regs name r o own n x R E. destruct (read_contents _ _ _ _ R) as (text & C & P). cbn [category_of]. rewrite C, P. cbn [f_copy]. rewrite E.
  destruct own as [c|]; cbn [option_map f_category read_category]; [now rewrite inner_quoted|reflexivity].
Qed.

(** parts[0] *)
Lemma first_part dir rest : has_char "/" dir = false -> dir <> "" -> dir <> "." ->
  absolute (dir +++ "/" +++ rest) = false /\ exists l, parts (dir +++ "/" +++ rest) = dir :: l.
Proof.
  intros S N D. split.
  - unfold absolute. destruct dir as [|a d]; [congruence|]. cbn [has_char startswith String.append] in *. apply orb_false_iff in S as [S _].
    now rewrite Ascii.eqb_sym, S.
  - unfold parts. change (dir +++ "/" +++ rest) with (dir +++ String "/" rest). rewrite (split_char_app "/" dir _ S). cbn [filter].
    apply String.eqb_neq in N, D. rewrite N, D. cbn [negb andb]. eauto.
Qed.

(** The category of a file of a remote registry is the first directory of its listed name. *)
Theorem C82_guessed_remote : forall regs name r fs dir rest n, plain_name name -> read_by regs name r (mkFile None None) -> r_kind r = Remote fs ->
  Forall listed (map fst fs) -> In (dir +++ "/" +++ rest)%string (map fst fs) -> base (dir +++ "/" +++ rest)%string = name +++ ".comp" ->
  has_char "/" dir = false -> dir <> "" -> dir <> "." ->
  (forall f, In f (map fst fs) -> base f = name +++ ".comp" -> f = (dir +++ "/" +++ rest)%string) ->
  category_of root parse regs (S n) name = Ok dir.
Proof.
  intros regs name r fs dir rest n P R K L I B S N D U. set (f := (dir +++ "/" +++ rest)%string) in *.
  destruct (read_contents _ _ _ _ R) as (text & C & Pa). cbn [category_of]. rewrite C, Pa. cbn [f_copy f_category].
  unfold guess, reader_get. cbn [selected]. destruct R as (F & _). rewrite F. unfold full_path, r_fullname. rewrite K.
  destruct (C35_listed_file_is_served (map fst fs) name (Some ".comp") true true (name +++ ".comp") L (plus_comp name P)) as (_ & g & G & Ig & Hg).
  { exists f. split; [exact I|]. right. exact B. }
  assert (E : g = f).
  { destruct Hg as [-> | (_ & a & b & _ & Bg & _)]; [|now apply U]. apply U; [exact Ig|]. unfold base. rewrite (parts_file name P). reflexivity. }
  subst g. rewrite G. cbn [option_map]. destruct (first_part dir rest S N D) as (A & l & X). fold f in A, X. now rewrite A, X.
Qed.

(** The category of a file of a local registry with an absolute root is not known. *)
Theorem C82_guessed_local : forall regs name r es n, read_by regs name r (mkFile None None) -> r_kind r = Local es -> absolute (root r) = true ->
  category_of root parse regs (S n) name = Ok "UNKNOWN".
Proof.
  intros regs name r es n R K A. destruct (read_contents _ _ _ _ R) as (text & C & Pa). cbn [category_of]. rewrite C, Pa. cbn [f_copy f_category].
  unfold guess, reader_get. cbn [selected]. destruct R as (F & t & Ct & _). rewrite F. unfold full_path, r_fullname, r_contents in *. rewrite K in *.
  destruct (local_fullname (map fst es) name (Some ".comp") false) as [e|]; [|discriminate]. cbn [option_map].
  unfold absolute in *. apply startswith_spec in A as (q & A).
  assert (T : startswith "/" (root r +++ "/" +++ join "/" e) = true) by (apply startswith_spec; exists (q +++ "/" +++ join "/" e); rewrite A; reflexivity).
  now rewrite T.
Qed.

Lemma plain_file_path name : plain_name name -> absolute (name +++ ".comp") = false /\ parts (name +++ ".comp") = [name +++ ".comp"].
Proof.
  intros P. split; [|now apply parts_file]. unfold absolute. destruct P as (N & S & _). destruct name as [|a d]; [congruence|].
  cbn [has_char startswith String.append] in *. apply orb_false_iff in S as [S _]. now rewrite Ascii.eqb_sym, S.
Qed.
(** But the category of a file kept in memory is the name of the file. *)
Theorem C82_memory_category_refuted : forall regs name r d n, plain_name name -> read_by regs name r (mkFile None None) -> r_kind r = Memory d ->
  category_of root parse regs (S n) name = Ok (name +++ ".comp").
Proof.
  intros regs name r d n P R K. destruct (read_contents _ _ _ _ R) as (text & C & Pa). cbn [category_of]. rewrite C, Pa. cbn [f_copy f_category].
  unfold guess, reader_get. cbn [selected]. destruct R as (F & t & Ct & _). rewrite F. unfold full_path, r_fullname, r_contents, memory_contents in *. rewrite K in *.
  unfold memory_fullname in *. destruct (get d (name +++ ".comp")); [|discriminate]. destruct (plain_file_path name P) as (A & B). now rewrite A, B.
Qed.
(** Nor is a category that is stated as a name ever used: such a file cannot be read. *)
Theorem C82_category_name_refuted : forall regs name r c n, read_by regs name r (mkFile None (Some (CatName c))) -> category_of root parse regs (S n) name = Raise.
Proof. intros regs name r c n R. destruct (read_contents _ _ _ _ R) as (text & C & P). cbn [category_of]. now rewrite C, P. Qed.
End Props.
Print Assumptions C82_stated.
Print Assumptions C82_copy.
Print Assumptions C82_guessed_remote.
Print Assumptions C82_guessed_local.
Print Assumptions C82_memory_category_refuted.
Print Assumptions C82_category_name_refuted.

Definition ex_parse (t : string) : option cfile :=
  if t =?s "plain" then Some (mkFile None None) else if t =?s "stated" then Some (mkFile None (Some (CatText (quoted "optics"))))
  else if t =?s "copy" then Some (mkFile (Some "Guide") None) else if t =?s "named" then Some (mkFile None (Some (CatName "optics"))) else None.
Definition ex_remote := mkReg "mcstas" 0 (Remote [("optics/Guide.comp", "plain"); ("samples/Guide2.comp", "copy"); ("share/lib.h", "")]).
Definition ex_local := mkReg "here" 10 (Local [(["Slit.comp"], Some "plain")]).
Definition ex_memory := mkReg "memory" 100 (Memory [("Mine.comp", "plain"); ("Yours.comp", "stated"); ("Bad.comp", "named")]).
Definition ex_regs := [ex_memory; ex_local; ex_remote].
Definition ex_root (r : registry) : string := "/home/user".
Ltac listed_here := repeat constructor; cbn; try discriminate; reflexivity.
Example C82_example :
  read_by ex_parse ex_regs "Guide" ex_remote (mkFile None None) /\ read_by ex_parse ex_regs "Guide2" ex_remote (mkFile (Some "Guide") None)
  /\ read_by ex_parse ex_regs "Slit" ex_local (mkFile None None) /\ read_by ex_parse ex_regs "Mine" ex_memory (mkFile None None)
  /\ read_by ex_parse ex_regs "Yours" ex_memory (mkFile None (Some (CatText (quoted "optics")))) /\ read_by ex_parse ex_regs "Bad" ex_memory (mkFile None (Some (CatName "optics")))
  /\ Forall listed ["optics/Guide.comp"; "samples/Guide2.comp"; "share/lib.h"]
  /\ map (category_of ex_root ex_parse ex_regs 2) ["Guide"; "Guide2"; "Slit"; "Mine"; "Yours"; "Bad"]
     = [Ok "optics"; Ok "optics"; Ok "UNKNOWN"; Ok "Mine.comp"; Ok "optics"; Raise].
Proof.
  repeat match goal with |- _ /\ _ => split end.
  1-6: (split; [vm_compute; reflexivity|eexists; split; vm_compute; reflexivity]).
  - listed_here.
  - vm_compute. reflexivity.
Qed.

(* ---- the instances of a category ---- *)
Inductive sublist {A} : list A -> list A -> Prop :=
| sub_nil : sublist [] []
| sub_skip x a b : sublist a b -> sublist a (x :: b)
| sub_take x a b : sublist a b -> sublist (x :: a) (x :: b).
Fixpoint exactly (insts : list (string * string)) (c : string) : list string :=
  match insts with [] => [] | (i, k) :: t => if string_dec k c then i :: exactly t c else exactly t c end.
(** All instances of the category are named, in their order; and no other if no other category of the
    instrument contains the text asked for. *)
Theorem C82_instances_partial : forall insts c,
  sublist (exactly insts c) (names_by_category insts c) /\ sublist (names_by_category insts c) (map fst insts)
  /\ ((forall i k, In (i, k) insts -> (exists l r, k = l +++ c +++ r) -> k = c) -> names_by_category insts c = exactly insts c).
Proof.
  intros insts c.
  assert (Self : contains c c = true) by (apply contains_spec; exists "", ""; cbn; now rewrite string_app_nil_r).
  induction insts as [|[i k] t (A & B & C)]; [repeat split; constructor|].
  unfold names_by_category in *. cbn [filter snd exactly]. destruct (string_dec k c) as [->|N].
  - rewrite Self. cbn [map fst]. split; [exact (sub_take i _ _ A)|]. split; [exact (sub_take i _ _ B)|]. intros H. f_equal. apply C. intros i' k' I. apply (H i' k'). now right.
  - destruct (contains c k) eqn:E; cbn [map fst].
    + split; [exact (sub_skip i _ _ A)|]. split; [exact (sub_take i _ _ B)|]. intros H. exfalso. apply N. apply (H i k); [now left|]. now apply contains_spec.
    + split; [exact A|]. split; [exact (sub_skip i _ _ B)|]. intros H. apply C. intros i' k' I. apply (H i' k'). now right.
Qed.
Print Assumptions C82_instances_partial.
(** In general others are named too: asking for optics gives the instances of any category with
    these letters in it, asking for the empty text gives all. *)
Theorem C82_instances_refuted : forall i l r, (l +++ r)%string <> "" ->
  exactly [(i, (l +++ "optics" +++ r)%string)] "optics" = [] /\ names_by_category [(i, (l +++ "optics" +++ r)%string)] "optics" = [i].
Proof.
  intros i l r N. unfold names_by_category. cbn [exactly filter snd]. destruct (string_dec _ _) as [E|E].
  - exfalso. apply N. apply (f_equal String.length) in E. rewrite !string_app_length in E. cbn in E. destruct l; [|cbn in E; lia]. destruct r; [reflexivity|cbn in E; lia].
  - split; [reflexivity|]. assert (T : contains "optics" (l +++ "optics" +++ r) = true) by (apply contains_spec; eauto). now rewrite T.
Qed.
Print Assumptions C82_instances_refuted.
Example C82_instances_example :
  let insts := [("src", "sources"); ("guide", "optics"); ("mine", "contrib/optics"); ("slit", "optics")] in
  names_by_category insts "optics" = ["guide"; "mine"; "slit"] /\ exactly insts "optics" = ["guide"; "slit"]
  /\ names_by_category insts "sources" = exactly insts "sources" /\ names_by_category insts "" = map fst insts.
Proof. vm_compute. repeat split. Qed.
