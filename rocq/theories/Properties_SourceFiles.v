(** C79: which files a command reads and writes *)
From Coq Require Import List String Ascii Bool Arith ZArith Lia Permutation Sorted.
From Verif Require Import PyStr TextLines Registry Properties_Registry SourceFiles.
Import ListNotations.
Local Open Scope string_scope.
Local Open Scope list_scope.
Local Open Scope nat_scope.

(** * Specification *)
(** a name a file or directory can have *)
Definition file_name (n : string) : Prop := n <> "" /\ n <> "." /\ has_char "/" n = false.
(** the directory has, somewhere below it, something called n *)
Definition has (n : string) (d : directory) : Prop := exists e t, In (e, t) (d_entries d) /\ called n e.
(** q is a file of the registry, with this text *)
Definition file_of (r : registry) (q t : string) : Prop :=
  match r_kind r with
  | Local es => exists e, In (e, Some t) es /\ q = join "/" e
  | Remote fs => In (q, t) fs
  | Memory d => In (q, t) d
  end.
(** names in a local registry are names; a remote one lists some file of this name *)
Definition proper (n : string) (r : registry) : Prop :=
  match r_kind r with
  | Local es => forall e t x, In (e, t) es -> In x e -> file_name x
  | Remote fs => exists f t, In (f, t) fs /\ base f = n
  | Memory _ => False
  end.

(** * Facts *)
Lemma parts_name n : file_name n -> parts n = [n].
Proof.
  intros (N & D & S). unfold parts. rewrite (split_char_none _ _ S). cbn.
  destruct (String.eqb_spec n ""); [contradiction|]. destruct (String.eqb_spec n "."); [contradiction|]. reflexivity.
Qed.
Lemma absolute_name n : file_name n -> absolute n = false.
Proof.
  intros (N & _ & S). unfold absolute. destruct n as [|a n]; [reflexivity|]. cbn [has_char startswith] in *. apply orb_false_iff in S as [S _].
  now rewrite Ascii.eqb_sym, S.
Qed.
Lemma plus_none n : file_name n -> name_plus_suffix n None = Some n.
Proof. intro P. unfold name_plus_suffix. rewrite (parts_name n P), (absolute_name n P). reflexivity. Qed.
Lemma globbable_name n : file_name n -> globbable n = true.
Proof. intro P. unfold globbable. now rewrite (parts_name n P), (absolute_name n P). Qed.
Lemma parts_in s x : In x (parts s) -> file_name x.
Proof.
  unfold parts. intro H. apply filter_In in H as [I H]. apply andb_true_iff in H as [H1 H2].
  pose proof (split_char_nochar "/" s) as F. rewrite Forall_forall in F. repeat split; [| |now apply F].
  - intros ->. discriminate.
  - intros ->. discriminate.
Qed.
Lemma parts_join e : e <> [] -> (forall x, In x e -> file_name x) -> parts (join "/" e) = e.
Proof.
  intros N H. unfold parts. rewrite (split_char_join "/" e N).
  - induction e as [|x e IH]; [reflexivity|]. destruct (H x (or_introl eq_refl)) as (A & B & _). cbn.
    destruct (String.eqb_spec x ""); [contradiction|]. destruct (String.eqb_spec x "."); [contradiction|]. cbn. f_equal.
    destruct e as [|y e]; [reflexivity|]. apply IH; [discriminate|]. intros z Hz. apply H. now right.
  - apply Forall_forall. intros x Hx. now apply H.
Qed.
Lemma insert_first r l : Forall (fun x => (r_prio x <= r_prio r)%Z) l -> insert r l = r :: l.
Proof. destruct 1 as [|x l H _]; [reflexivity|]. cbn. now rewrite (proj2 (Z.leb_le _ _) H). Qed.
Lemma ordered_equal p l : Forall (fun x => r_prio x = p) l -> ordered l = l.
Proof.
  induction 1 as [|x l H F IH]; [reflexivity|]. cbn. rewrite IH. apply insert_first. revert F. apply Forall_impl. intros; lia.
Qed.
Lemma local_known_has n nm d strict : plain_name n ->
  exists b, r_known (local_registry nm d) n (Some ".comp") strict = Some b /\ (b = true <-> has (n +++ ".comp") d).
Proof.
  intro P. unfold r_known, local_registry, local_known. cbn [r_kind]. rewrite (plus_comp n P). unfold glob_all. rewrite (globbable_file n P), (parts_file n P).
  eexists. split; [reflexivity|]. rewrite Nat.ltb_lt. unfold has. split.
  - intro L. destruct (filter (tail_match [n +++ ".comp"]) (map fst (d_entries d))) as [|e r] eqn:F; [cbn in L; lia|].
    assert (I : In e (filter (tail_match [n +++ ".comp"]) (map fst (d_entries d)))) by (rewrite F; now left).
    apply filter_In in I as [I T]. apply in_map_iff in I as ((e' & t) & <- & I). exists e', t. split; [exact I|]. now apply tail_match_called.
  - intros (e & t & I & C). assert (J : In e (filter (tail_match [n +++ ".comp"]) (map fst (d_entries d)))).
    { apply filter_In. split; [now apply (in_map fst) in I|now apply tail_match_called]. }
    destruct (filter _ _); [destruct J|cbn; lia].
Qed.
Lemma cli_order remote dirs cwd : (r_prio remote < 10)%Z ->
  new_reader (cli_registries remote dirs cwd) = map (fun d => local_registry (stem_of (base (d_path d))) d) dirs ++ [local_registry "working_directory" cwd; remote].
Proof.
  intro L. unfold new_reader, cli_registries. set (ls := map _ dirs). cbn [app]. cbn [ordered].
  assert (F : Forall (fun x => r_prio x = 10%Z) (ls ++ [local_registry "working_directory" cwd])).
  { apply Forall_app. split; [|repeat constructor]. apply Forall_forall. intros x Hx. apply in_map_iff in Hx as (d & <- & _). reflexivity. }
  rewrite (ordered_equal 10 _ F). pose proof (insert_app_above remote (ls ++ [local_registry "working_directory" cwd]) []) as A. rewrite app_nil_r in A. rewrite A.
  - cbn. rewrite <- app_assoc. reflexivity.
  - revert F. apply Forall_impl. intros x ->. exact L.
Qed.

(** * Theorems *)
(** A component is read from the first directory given with -I that has a file called so, if none has one from the working directory, and
    only if that has none from the distribution. *)
Theorem C79_search_order : forall remote dirs cwd n, (r_prio remote < 10)%Z -> plain_name n ->
  let ask := fun regs => reader_contents (new_reader regs) None n (Some ".comp") true in
  (forall a d b, dirs ++ [cwd] = a ++ d :: b -> has (n +++ ".comp") d -> (forall x, In x a -> ~ has (n +++ ".comp") x) ->
     ask (cli_registries remote dirs cwd) = r_contents (local_registry "" d) n (Some ".comp"))
  /\ ((forall d, In d (dirs ++ [cwd]) -> ~ has (n +++ ".comp") d) -> ask (cli_registries remote dirs cwd) = ask [remote]).
Proof.
  intros remote dirs cwd n L P ask. unfold ask. rewrite (cli_order remote dirs cwd L).
  set (loc := fun (nm : directory -> string) d => local_registry (nm d) d).
  assert (K : forall nm d strict, ~ has (n +++ ".comp") d -> r_known (local_registry nm d) n (Some ".comp") strict = Some false).
  { intros nm d strict N. destruct (local_known_has n nm d strict P) as ([|] & E & B); [|exact E]. exfalso. apply N. now apply B. }
  assert (K' : forall nm d strict, has (n +++ ".comp") d -> r_known (local_registry nm d) n (Some ".comp") strict = Some true).
  { intros nm d strict N. destruct (local_known_has n nm d strict P) as ([|] & E & B); [exact E|]. apply B in N. discriminate. }
  split.
  - intros a d b E H N. unfold reader_contents, reader_get. cbn [selected].
    destruct b as [|x b] using rev_ind.
    + apply app_inj_tail in E as [-> ->]. rewrite (first_known_app (map _ a)).
      * cbn [first_known]. now rewrite (K' _ _ _ H).
      * intros y Hy. apply in_map_iff in Hy as (z & <- & Hz). apply K. now apply N.
    + clear IHb. rewrite app_comm_cons, app_assoc in E. apply app_inj_tail in E as [-> ->]. rewrite map_app. cbn [map]. rewrite <- app_assoc. rewrite (first_known_app (map _ a)).
      * cbn [first_known app]. now rewrite (K' _ _ _ H).
      * intros y Hy. apply in_map_iff in Hy as (z & <- & Hz). apply K. now apply N.
  - intro N. unfold reader_contents, reader_get. cbn [selected].
    rewrite (first_known_app (map _ dirs)).
    + cbn [first_known]. rewrite (K _ _ _ (N cwd ltac:(apply in_or_app; right; now left))). reflexivity.
    + intros y Hy. apply in_map_iff in Hy as (z & <- & Hz). apply K. apply N. apply in_or_app. now left.
Qed.
Print Assumptions C79_search_order.
Example C79_search_order_example :
  let remote := mkReg "mcstas" (-10) (Remote [("optics/Arm.comp", "dist"); ("optics/Slit.comp", "dist slit"); ("optics/Guide.comp", "dist guide")]) in
  let a := mkDir "/home/u/a" [(["Slit.comp"], Some "a slit")] in
  let b := mkDir "/home/u/b" [(["sub"; "Slit.comp"], Some "b slit")] in
  let c := mkDir "/home/u/work" [(["Slit.comp"], Some "own slit"); (["Guide.comp"], Some "own guide")] in
  let ask := fun n => reader_contents (new_reader (cli_registries remote [b; a] c)) None n (Some ".comp") true in
  ask "Slit" = Some "b slit" /\ ask "Guide" = Some "own guide" /\ ask "Arm" = Some "dist" /\ ask "Lens" = None /\
  has "Slit.comp" b /\ ~ has "Guide.comp" a.
Proof.
  do 4 (split; [vm_compute; reflexivity|]). split.
  - exists ["sub"; "Slit.comp"], (Some "b slit"). split; [now left|]. now exists ["sub"].
  - intros (e & t & [[= <- <-]|[]] & (d & E)). destruct d as [|? [|? ?]]; discriminate.
Qed.

(** A file that exists is read, whatever the registries have. *)
Theorem C79_file_first : forall disk regs name p t, name_plus_suffix name (Some ".instr") = Some p -> disk p = Some t ->
  read_source disk regs name = Some (OnDisk p, t).
Proof. intros disk regs name p t E D. unfold read_source. now rewrite E, D. Qed.
Print Assumptions C79_file_first.

Lemma local_fullname_called es n f : file_name n -> local_fullname es n None false = Some f -> In f es /\ called n f.
Proof.
  intros P. unfold local_fullname. rewrite (plus_none n P). unfold glob_root, glob_all. rewrite (globbable_name n P), (parts_name n P).
  set (fr := filter _ es). set (fa := filter (tail_match [n]) es).
  assert (A : forall g, In g fr -> In g es /\ called n g).
  { intros g Hg. apply filter_In in Hg as [I E]. destruct (list_eq_dec _ _ _) as [->|]; [|discriminate]. split; [exact I|now exists []]. }
  assert (B : forall g, In g fa -> In g es /\ called n g).
  { intros g Hg. apply filter_In in Hg as [I E]. split; [exact I|now apply tail_match_called]. }
  destruct fr as [|x [|y r]]; [|intros [= <-]; apply A; now left|]; destruct fa as [|x' [|y' r']]; try discriminate; intros [= <-]; apply B; now left.
Qed.
Lemma base_join e n : (forall x, In x e -> file_name x) -> called n e -> base (join "/" e) = n.
Proof. intros H (d & ->). unfold base. rewrite parts_join; [apply last_last|destruct d; discriminate|exact H]. Qed.
Lemma get_in d k v : get d k = Some v -> In (k, v) d.
Proof.
  unfold get. destruct (find _ d) as [[k' v']|] eqn:F; [|discriminate]. intros [= <-]. apply find_some in F as [I E]. apply String.eqb_eq in E. cbn in E. now subst.
Qed.

Lemma last_char a b x y : a +++ String x "" = b +++ String y "" -> x = y.
Proof.
  revert b. induction a as [|c a IH]; intros [|d b]; cbn; intro H.
  - now injection H.
  - injection H as _ H. destruct b; discriminate.
  - injection H as _ H. destruct a; discriminate.
  - injection H as _ H. now apply IH in H.
Qed.
Lemma posix_last ab ps x : exists b, posix ab (ps ++ [x]) = b +++ x.
Proof.
  unfold posix. destruct (ps ++ [x]) as [|y l] eqn:E; [destruct ps; discriminate|]. rewrite <- E. destruct ps as [|z ps].
  - cbn. exists (if ab then "/" else ""). reflexivity.
  - destruct (join_last "/" (z :: ps) x ltac:(discriminate)) as (l' & J). rewrite J. exists ((if ab then "/" else "") +++ l' +++ "/"). now rewrite !string_app_assoc.
Qed.
Lemma suffix_tail s x : suffix_of s = x -> x <> "" -> exists b, s = b +++ x.
Proof.
  unfold suffix_of. destruct (cut_dot s) as [[b e]|] eqn:C; [|congruence]. destruct ((b =?s "") || (e =?s "")); [congruence|]. intros <- _. exists b.
  clear -C. revert b e C. induction s as [|a s IH]; cbn; [discriminate|]. intros b e. destruct (cut_dot s) as [[b' e']|].
  - intros [= <- <-]. cbn. f_equal. now apply IH.
  - destruct (Ascii.eqb_spec a ".") as [->|]; [|discriminate]. now intros [= <- <-].
Qed.
Lemma with_suffix_last s suf o : with_suffix s suf = Some o -> exists b, o = b +++ suf.
Proof.
  unfold with_suffix. destruct (_ && _); [discriminate|]. destruct (parts s) as [|y l]; [discriminate|]. intros [= <-].
  match goal with |- context [posix ?a (?b ++ [?c +++ _])] => destruct (posix_last a b (c +++ suf)) as (z & Z); rewrite Z; exists (z +++ c) end. now rewrite string_app_assoc.
Qed.

(** a name that is not the empty path or the root, with its suffix *)
Lemma instr_path_last file p : name_plus_suffix file (Some ".instr") = Some p -> exists z, p = z +++ "r".
Proof.
  unfold name_plus_suffix. destruct (String.eqb_spec (suffix_of (base file)) ".instr") as [Y|Y].
  - intros [= <-]. destruct (suffix_tail (base file) _ Y) as (b1 & B1); [discriminate|].
    unfold base in B1. destruct (parts file) as [|x l] eqn:P; [destruct b1; discriminate|]. rewrite <- P in *.
    assert (Q : parts file <> []) by (rewrite P; discriminate). destruct (exists_last Q) as (ps & y & PS). rewrite PS in *. rewrite last_last in B1. subst y.
    destruct (posix_last (absolute file) ps (b1 +++ ".instr")) as (z & ->). exists (z +++ b1 +++ ".inst"). now rewrite !string_app_assoc.
  - intro S. apply with_suffix_last in S as (z & ->). exists (z +++ suffix_of (base file) +++ ".inst"). now rewrite !string_app_assoc.
Qed.
Lemma parts_r z : parts (z +++ "r") <> [].
Proof.
  assert (E : exists x, In (x +++ "r") (split_char "/" (z +++ "r"))).
  { induction z as [|a z (x & IH)]; [now exists ""; left|]. cbn [String.append split_char]. destruct (Ascii.eqb a "/"); [exists x; now right|].
    destruct (split_char "/" (z +++ "r")) as [|h t] eqn:S; [destruct IH|]. destruct IH as [->|IH]; [exists (String a x); now left|exists x; now right]. }
  destruct E as (x & E). unfold parts. intro N. assert (I : In (x +++ "r") []); [|destruct I]. rewrite <- N. apply filter_In. split; [exact E|].
  destruct x as [|a [|b x]]; [reflexivity| |]; cbn; rewrite ?andb_false_r; try reflexivity. all: destruct (Ascii.eqb a "."); reflexivity.
Qed.
Lemma base_file_name file p : name_plus_suffix file (Some ".instr") = Some p -> file_name (base p).
Proof.
  intro E. destruct (instr_path_last file p E) as (z & ->). apply (parts_in (z +++ "r")). unfold base.
  destruct (exists_last (parts_r z)) as (l & x & ->). rewrite last_last. apply in_or_app. right. now left.
Qed.

(** Otherwise the first registry that knows the name of the file, without its directories, has it: what is read is one of its files, it has that
    name, and the text is the text of that file. *)
Theorem C79_one_file_is_read_partial : forall disk regs name p r q t,
  name_plus_suffix name (Some ".instr") = Some p -> disk p = None ->
  first_known regs (base p) None false = Some (Some r) -> proper (base p) r ->
  read_source disk regs name = Some (Within r q, t) -> base q = base p /\ file_of r q t.
Proof.
  intros disk regs name p r q t E D F G. pose proof (base_file_name name p E) as P. unfold read_source. rewrite E, D. cbn [selected]. rewrite F. unfold reader_contents, reader_get. cbn [selected].
  unfold proper, file_of, r_path, r_fullname, r_contents in *.
  assert (C : forall m, m = base p -> first_known regs m None false = Some (Some r)) by (intros m ->; exact F).
  destruct (r_kind r) as [fs|es|d] eqn:K; [| |destruct G].
  - destruct (remote_fullname (map fst fs) (base p) None true) as [f|] eqn:R; [|discriminate]. cbn [option_map].
    assert (B : base f = base p).
    { unfold remote_fullname in R. rewrite (plus_none _ P) in R. destruct (find (fun f => f =?s base p) (map fst fs)) as [g|] eqn:F1.
      - injection R as <-. apply find_some in F1 as [_ F1]. apply String.eqb_eq in F1. subst g. unfold base at 1. rewrite (parts_name _ P). reflexivity.
      - destruct G as (g & t' & I & B). destruct (find_ext_some (fun f => base f =?s base p) (map fst fs) g) as (g' & F2).
        + now apply (in_map fst) in I.
        + cbn. rewrite B. apply String.eqb_refl.
        + rewrite F2 in R. injection R as <-. apply find_some in F2 as [_ F2]. now apply String.eqb_eq in F2. }
    rewrite (C _ B), K, B, R. destruct (get fs f) as [t'|] eqn:T; [|discriminate]. intros [= <- <-]. split; [exact B|now apply get_in].
  - destruct (local_fullname (map fst es) (base p) None false) as [f|] eqn:R; [|discriminate]. cbn [option_map].
    pose proof (local_fullname_called _ _ _ P R) as [I A]. apply in_map_iff in I as ((f' & c') & <- & I). cbn [fst] in *.
    assert (B : base (join "/" f') = base p) by (apply base_join; [intros x Hx; eapply G; eassumption|exact A]).
    rewrite (C _ B), K, B, R. destruct (find _ es) as [[f2 [t'|]]|] eqn:T; try discriminate. intros [= <- <-]. split; [exact B|].
    apply find_some in T as [I2 T]. destruct (list_eq_dec _ _ _) as [E2|]; [|discriminate]. cbn in E2. subst f2. eauto.
Qed.
Print Assumptions C79_one_file_is_read_partial.
Example C79_one_file_is_read_example :
  let r := mkReg "mine" 10 (Local [(["ess"; "part.instr"], Some "DEFINE INSTRUMENT part()"); (["whole.instr"], Some "w")]) in
  let far := mkReg "far" (-10) (Remote [("examples/other.instr", "o")]) in
  read_source (fun _ => None) (new_reader [far; r]) "part" = Some (Within r "ess/part.instr", "DEFINE INSTRUMENT part()") /\
  read_source (fun _ => None) (new_reader [far; r]) "other.instr" = Some (Within far "examples/other.instr", "o") /\
  read_source (fun p => if p =?s "part.instr" then Some "mine" else None) (new_reader [far; r]) "part" = Some (OnDisk "part.instr", "mine") /\
  proper "other.instr" far /\ proper "part.instr" r.
Proof.
  do 3 (split; [vm_compute; reflexivity|]). split.
  - exists "examples/other.instr", "o". split; [now left|reflexivity].
  - intros e t x [E|[E|[]]] X; injection E as <- <-; cbn in X; intuition subst; repeat split; discriminate.
Qed.

(* An instrument file is looked for a second time, under the name of the file found first.  If a registry has no such file but a single one with
   a longer name, the second search can end in another registry: the text read is not that of the file the instrument is said to come from. *)
Theorem C79_text_and_name_refuted : exists regs name r q t, read_source (fun _ => None) (new_reader regs) name = Some (Within r q, t) /\
  base q <> name /\ (forall t', file_of r q t' -> t' <> t).
Proof.
  set (far := mkReg "far" (-10) (Remote [("examples/xpart.instr", "theirs")])). set (near := mkReg "near" 10 (Local [(["xpart.instr"], Some "mine")])).
  exists [far; near], "part.instr", far, "examples/xpart.instr", "mine". split; [vm_compute; reflexivity|]. split; [vm_compute; discriminate|].
  intros t' [[= <-]|[]]. discriminate.
Qed.
Print Assumptions C79_text_and_name_refuted.

(* The directories in front of the name of an instrument (for example in a percent-include line) only count for files reached from the working directory:
   asked for a path a registry lists, the reader may read another file of the same name. *)
Theorem C79_directory_refuted : exists r name q t, file_of r name "asked for" /\ read_source (fun _ => None) [r] name = Some (Within r q, t) /\
  q <> name /\ t <> "asked for" /\ r_contents r name None = Some "asked for".
Proof.
  exists (mkReg "mine" (-10) (Remote [("monitors/part.instr", "other"); ("detectors/part.instr", "asked for")])), "detectors/part.instr", "monitors/part.instr", "other".
  split; [right; now left|]. split; [vm_compute; reflexivity|]. split; [discriminate|]. split; [discriminate|vm_compute; reflexivity].
Qed.
Print Assumptions C79_directory_refuted.

(* An instrument file added to an InMemoryRegistry with add_instr is known to the reader but can never be read: the registry gives no path. *)
Theorem C79_memory_instrument_refuted : forall disk nm prio d rest k v, file_name (instr_key k) ->
  name_plus_suffix k (Some ".instr") = Some (instr_key k) -> disk (instr_key k) = None ->
  let r := mkReg nm prio (Memory (add_instr d k v)) in
  r_contents r (instr_key k) None = Some v /\ read_source disk (r :: rest) k = None.
Proof.
  intros disk nm prio d rest k v P E D r.
  assert (G : get (add_instr d k v) (instr_key k) = Some v).
  { unfold add_instr. generalize (instr_key k). intro key. unfold get. induction d as [|[k' v'] d IH]; cbn; [now rewrite String.eqb_refl|].
    destruct (String.eqb_spec k' key) as [->|N]; cbn; [now rewrite String.eqb_refl|]. rewrite (proj2 (String.eqb_neq _ _) N). exact IH. }
  unfold r_contents, r, memory_contents, memory_fullname. cbn [r_kind]. rewrite G. split; [exact G|].
  unfold read_source. rewrite E, D. cbn [selected first_known]. unfold r_known at 1. cbn [r_kind]. unfold memory_known, memory_fullname.
  replace (base (instr_key k)) with (instr_key k) by (unfold base; rewrite (parts_name _ P); reflexivity). rewrite G. unfold r_path. reflexivity.
Qed.
Print Assumptions C79_memory_instrument_refuted.
Example C79_memory_instrument_example : file_name (instr_key "part") /\ name_plus_suffix "part" (Some ".instr") = Some (instr_key "part").
Proof. split; [repeat split; discriminate|vm_compute; reflexivity]. Qed.

Lemma lower_app a b : lower (a +++ b) = lower a +++ lower b.
Proof. induction a as [|c a IH]; [reflexivity|]. cbn. now rewrite IH. Qed.
Lemma lower_split k : forall a b, lower k = a +++ b -> exists x y, k = x +++ y /\ lower x = a /\ lower y = b.
Proof.
  intro a. revert k. induction a as [|c a IH]; intros k b E; [exists "", k; repeat split; exact E|]. destruct k as [|d k]; [discriminate|]. cbn in E. injection E as E1 E2.
  destruct (IH k b E2) as (x & y & -> & X & Y). exists (String d x), y. repeat split; [|exact Y]. cbn. now rewrite E1, X.
Qed.
(** An instrument put into a registry in memory is there under its name, to which .instr is added if it does not end so in small or capital letters;
    all other files stay. *)
Theorem C79_memory_instrument_kept : forall d k v,
  (forall b e, k = b +++ e -> lower e = ".instr" -> get (add_instr d k v) k = Some v) /\
  ((forall b e, k = b +++ e -> lower e <> ".instr") -> get (add_instr d k v) (k +++ ".instr") = Some v) /\
  (forall k', k' <> k -> k' <> k +++ ".instr" -> get (add_instr d k v) k' = get d k').
Proof.
  intros d k v.
  assert (G : forall key, get (put d key v) key = Some v).
  { intro key. unfold get. induction d as [|[k' v'] d IH]; cbn; [now rewrite String.eqb_refl|]. destruct (String.eqb_spec k' key) as [->|N]; cbn; [now rewrite String.eqb_refl|]. rewrite (proj2 (String.eqb_neq _ _) N). exact IH. }
  assert (O : forall key k', k' <> key -> get (put d key v) k' = get d k').
  { clear G. intros key k' N. unfold get. induction d as [|[a b] d IH]; cbn; [now rewrite (proj2 (String.eqb_neq key k')) by congruence|].
    destruct (String.eqb_spec a key) as [->|N']; cbn; [now rewrite (proj2 (String.eqb_neq key k')) by congruence|]. destruct (a =?s k'); [reflexivity|exact IH]. }
  unfold add_instr, instr_key. split; [|split].
  - intros b e -> L. rewrite lower_app, L. rewrite (proj2 (endswith_spec _ _)) by (now exists (lower b)). apply G.
  - intro H. destruct (endswith ".instr" (lower k)) eqn:E; [|apply G]. exfalso. apply endswith_spec in E as (b & E). apply lower_split in E as (b' & e & -> & _ & L). exact (H b' e eq_refl L).
  - intros k' N1 N2. apply O. destruct (endswith _ _); assumption.
Qed.
Print Assumptions C79_memory_instrument_kept.
Example C79_memory_instrument_kept_example : get (add_instr [("a.instr", "old")] "A.INSTR" "new") "A.INSTR" = Some "new" /\ get (add_instr [("a.instr", "old")] "a" "new") "a.instr" = Some "new".
Proof. vm_compute. repeat split. Qed.

(** Without -o the output is another file than the instrument that is read, be it a text or stored in HDF5, and is in the same directory as
    the file on the command line. *)
Theorem C79_default_output : forall disk remote dirs cwd file o i, posix (absolute file) (parts file) = file ->
  output_file None file = Some o -> command_input disk remote dirs cwd file = Some i ->
  (forall regs p t, i = Source regs (OnDisk p) t -> o <> p) /\ (forall p, i = Stored p -> o <> p) /\
  (exists x, o = posix (absolute file) (removelast (parts file) ++ [x])) /\ (forall x, output_file (Some x) file = Some x).
Proof.
  intros disk remote dirs cwd file o i N O. match goal with |- _ -> ?A /\ ?B /\ ?C /\ ?D => cut (command_input disk remote dirs cwd file = Some i -> A /\ B /\ C); [intros H I; destruct (H I) as (H1 & H2 & H3); repeat split; auto|] end. unfold output_file in O. destruct (with_suffix_last _ _ _ O) as (b & ->). unfold command_input.
  destruct (lower (suffix_of (base file)) =?s ".h5") eqn:H; [intros [= <-]|].
  - split; [discriminate|]. split.
    + intros p [= <-] E. apply String.eqb_eq in H. destruct (suffix_tail (base file) _ eq_refl) as (b1 & B1); [intro X; rewrite X in H; discriminate|].
      assert (Q : parts file <> []) by (unfold with_suffix in O; cbn in O; destruct (parts file); [discriminate|discriminate]).
      destruct (listed_base file (conj Q N)) as (l & L). rewrite B1 in L.
      set (x := suffix_of (base file)) in *. assert (X : exists u v, x = String u (String v "5")).
      { destruct x as [|u [|v [|w [|? ?]]]]; try discriminate H. exists u, v. f_equal. f_equal. cbn in H. injection H as _ _ H.
        destruct w as [[|] [|] [|] [|] [|] [|] [|] [|]]; vm_compute in H; try discriminate H; reflexivity. }
      destruct X as (u & v & X). rewrite X in L. rewrite L in E.
      replace (b +++ ".c") with ((b +++ ".") +++ "c") in E by (rewrite string_app_assoc; reflexivity).
      replace (l +++ b1 +++ String u (String v "5")) with ((l +++ b1 +++ String u (String v "")) +++ "5") in E by (rewrite !string_app_assoc; reflexivity).
      apply last_char in E. discriminate.
    + unfold with_suffix in O. cbn in O. destruct (parts file) as [|y l] eqn:P; [discriminate|]. injection O as O. rewrite <- O. eexists. reflexivity.
  - destruct (read_source disk (new_reader (cli_registries remote dirs cwd)) file) as [[w t]|] eqn:R; [|discriminate]. intros [= <-]. split; [|split; [discriminate|]].
    + intros regs p t' [= _ -> _] E. unfold read_source in R. destruct (name_plus_suffix file (Some ".instr")) as [p'|] eqn:S; [|discriminate].
      assert (p' = p).
      { destruct (disk p') as [t''|]; [now injection R|]. destruct (first_known _ _ _ _) as [[r|]|]; try discriminate.
        destruct (r_path r _ _) as [[q|]|]; try discriminate. destruct (reader_contents _ _ _ _ _); discriminate. }
      subst p'. pose proof (instr_path_last file p S) as X.
      destruct X as (z & X). rewrite X in E. replace (b +++ ".c") with ((b +++ ".") +++ "c") in E by (rewrite string_app_assoc; reflexivity). apply last_char in E. discriminate.
    + unfold with_suffix in O. cbn in O. destruct (parts file) as [|y l] eqn:P; [discriminate|]. injection O as O. rewrite <- O. eexists. reflexivity.
Qed.
Print Assumptions C79_default_output.
Example C79_default_output_example :
  let remote := mkReg "mcstas" (-10) (Remote []) in let cwd := mkDir "/work" [] in
  let disk := fun p => if p =?s "/work/a.b.instr" then Some "text" else None in
  output_file None "/work/a.b.instr" = Some "/work/a.b.c" /\ output_file None "/work/a.b" = Some "/work/a.c" /\
  command_input disk remote [] cwd "/work/a.b" = Some (Source [local_registry "working_directory" cwd; remote] (OnDisk "/work/a.b.instr") "text") /\
  command_input disk remote [] cwd "/work/A.H5" = Some (Stored "/work/A.H5") /\ output_file None "/work/A.H5" = Some "/work/A.c".
Proof. vm_compute. repeat split. Qed.

(** The functions of the loader add the distribution behind what they are given, unless it is there; what a registry given has and the
    distribution does not outrank is still read from there. *)
Theorem C79_distribution_added : forall same needed have,
  (exists rest, ensure_registry same needed have = (match have with Some l => l | None => [] end) ++ rest /\ (rest = [] \/ rest = [needed])) /\
  (exists r, In r (ensure_registry same needed have) /\ (r = needed \/ same needed r = true)) /\
  (forall l name ext strict r, have = Some l -> first_known (new_reader l) name ext strict = Some (Some r) -> (r_prio needed <= r_prio r)%Z ->
     reader_contents (new_reader (ensure_registry same needed have)) None name ext strict = r_contents r name ext).
Proof.
  intros same needed have.
  assert (A : exists rest, ensure_registry same needed have = (match have with Some l => l | None => [] end) ++ rest /\ (rest = [] \/ rest = [needed])).
  { destruct have as [[|x l]|]; cbn [ensure_registry]; [exists [needed]; auto| |exists [needed]; auto]. destruct (existsb _ _); [exists []; rewrite app_nil_r; auto|exists [needed]; auto]. }
  split; [exact A|]. split.
  - destruct have as [[|x l]|]; cbn [ensure_registry]; [exists needed; cbn; auto| |exists needed; cbn; auto].
    destruct (existsb (same needed) (x :: l)) eqn:E; [apply existsb_exists in E as (r & I & S); eauto|]. exists needed. split; [|now left]. apply in_or_app. right. now left.
  - intros l name ext strict r -> F L. destruct A as (rest & -> & R). unfold reader_contents, reader_get. cbn [selected].
    rewrite (C34_later_of_equal_priority_changes_nothing l rest name ext strict r F); [reflexivity|]. intros x Hx. destruct R as [-> | ->]; [destruct Hx|]. destruct Hx as [<-|[]]. exact L.
Qed.
Print Assumptions C79_distribution_added.
Example C79_distribution_added_example :
  let dist := mkReg "mcstas" (-10) (Remote [("optics/Arm.comp", "dist")]) in let mine := mkReg "mine" 100 (Memory [("Arm.comp", "own")]) in
  let same := fun a b => r_name a =?s r_name b in
  ensure_registry same dist None = [dist] /\ ensure_registry same dist (Some [mine]) = [mine; dist] /\ ensure_registry same dist (Some [dist; mine]) = [dist; mine] /\
  first_known (new_reader [mine]) "Arm" (Some ".comp") true = Some (Some mine) /\
  reader_contents (new_reader (ensure_registry same dist (Some [mine]))) None "Arm" (Some ".comp") true = Some "own".
Proof. vm_compute. repeat split. Qed.

(** On the command line the translator looks for libraries in the registries in the order in which components were looked for: a library that every
    registry knows that knows the component comes from the registry of the component. *)
Theorem C79_library_beside_component : forall regs comp lib r r',
  first_known (fst (reader_registries regs)) comp (Some ".comp") true = Some (Some r) ->
  (forall x, In x regs -> r_known x lib None false = r_known x comp (Some ".comp") true) ->
  first_known (snd (reader_registries regs)) lib None false = Some (Some r') ->
  r' = r /\ target_locate (snd (reader_registries regs)) lib = r_path r lib None.
Proof.
  intros regs comp lib r r' F S F'. unfold reader_registries in *. cbn [fst snd] in *.
  assert (E : first_known (new_reader regs) lib None false = first_known (new_reader regs) comp (Some ".comp") true).
  { assert (S' : forall x, In x (new_reader regs) -> r_known x lib None false = r_known x comp (Some ".comp") true) by (intros x Hx; apply S; now apply (Permutation_in _ (ordered_perm regs))).
    induction (new_reader regs) as [|x l IH]; [reflexivity|]. cbn. rewrite (S' x (or_introl eq_refl)). destruct (r_known x comp (Some ".comp") true) as [[|]|]; try reflexivity.
    cbn in F, F'. clear IH. revert S'. clear. intro S'. assert (Q : forall y, In y l -> r_known y lib None false = r_known y comp (Some ".comp") true) by (intros; apply S'; now right).
    clear S'. induction l as [|y l IH]; [reflexivity|]. cbn. rewrite (Q y (or_introl eq_refl)). destruct (r_known y comp (Some ".comp") true) as [[|]|]; try reflexivity. apply IH. intros; apply Q; now right. }
  rewrite E, F in F'. injection F' as <-. split; [reflexivity|]. unfold target_locate. cbn [selected]. now rewrite E, F.
Qed.
Print Assumptions C79_library_beside_component.
(* The functions of the loader leave the registries of the instrument in the order given, while components are looked for by priority: the library
   of a component can come from another registry than the component. *)
Theorem C79_library_elsewhere_refuted : exists regs comp lib r, 
  first_known (fst (loader_registries regs)) comp (Some ".comp") true = Some (Some r) /\
  (forall x, In x regs -> r_known x lib None false = r_known x comp (Some ".comp") true) /\
  target_locate (snd (loader_registries regs)) lib <> r_path r lib None.
Proof.
  set (low := mkReg "dist" (-10) (Remote [("optics/Guide.comp", "1"); ("share/guide-lib.c", "1")])). set (high := mkReg "mine" 10 (Local [(["Guide.comp"], Some "2"); (["guide-lib.c"], Some "2")])).
  exists [low; high], "Guide", "guide-lib.c", high. split; [vm_compute; reflexivity|]. split; [|vm_compute; discriminate].
  intros x [<-|[<-|[]]]; vm_compute; reflexivity.
Qed.
Print Assumptions C79_library_elsewhere_refuted.
Example C79_library_example :
  let low := mkReg "dist" (-10) (Remote [("optics/Guide.comp", "1"); ("share/guide-lib.c", "1")]) in let high := mkReg "mine" 10 (Local [(["Guide.comp"], Some "2"); (["guide-lib.c"], Some "2")]) in
  first_known (fst (reader_registries [low; high])) "Guide" (Some ".comp") true = Some (Some high) /\
  target_locate (snd (reader_registries [low; high])) "guide-lib.c" = Some (Some "guide-lib.c") /\ file_name "guide-lib.c".
Proof. split; [vm_compute; reflexivity|]. split; [vm_compute; reflexivity|]. repeat split; discriminate. Qed.
