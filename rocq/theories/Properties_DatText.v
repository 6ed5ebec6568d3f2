(* Properties C63 and C64: the text of monitor files, their axes and items. *)
From Coq Require Import List String Ascii Bool Arith ZArith QArith Qcanon Lia.
From Verif Require Import PyStr Flags DatFile TextLines DatFacts DatText Properties_Data.
Import ListNotations.
Local Open Scope string_scope.
Local Open Scope list_scope.
Local Open Scope nat_scope.

(** * Lines *)
Lemma readlines_unlines ls : Forall oneline ls -> readlines (unlines ls) = map (fun l => l +++ String nl "") ls.
Proof.
  induction 1 as [|l ls H Hs IH]; [reflexivity|]. cbn [unlines map]. rewrite <- IH. clear IH Hs. unfold oneline in H.
  induction l as [|a l IH]; [reflexivity|]. cbn [append readlines]. cbn [has_char] in H. apply orb_false_elim in H as [Ha H].
  rewrite Ha. now rewrite (IH H).
Qed.

(** * strip *)
Lemma rby_app_fix f a b : rstrip_by f a = a -> rstrip_by f (a +++ b) = a +++ rstrip_by f b.
Proof.
  induction a as [|x a IH]; intro H; [reflexivity|]. cbn [append rstrip_by]. 
  assert (Ha : rstrip_by f a = a). { cbn in H. destruct (rstrip_by f a); [destruct (f x); congruence|congruence]. }
  rewrite (IH Ha). destruct a as [|y a]; [|reflexivity]. cbn in *. destruct (rstrip_by f b); [|reflexivity]. destruct (f x); [discriminate|reflexivity].
Qed.
Lemma rby_app f a b : rstrip_by f b <> "" -> rstrip_by f (a +++ b) = a +++ rstrip_by f b.
Proof. intro H. induction a as [|x a IH]; cbn; [reflexivity|]. rewrite IH. destruct (a +++ rstrip_by f b) eqn:E; [|reflexivity]. destruct a; cbn in E; [congruence|discriminate]. Qed.
Lemma rby_snoc f s c : f c = true -> rstrip_by f (s +++ String c "") = rstrip_by f s.
Proof. intro H. induction s as [|a s IH]; cbn; [now rewrite H|]. now rewrite IH. Qed.

(** * Values *)
(** a text that stands on one line, without blanks around it and without # at its end *)
Definition clean (s : string) : Prop := oneline s /\ strip s = s /\ endswith "#" s = false.
Lemma snoc_cases s : s = "" \/ exists l c, s = l +++ String c "".
Proof. induction s as [|a s [->|(l & c & ->)]]; [now left|right; now exists "", a|right; now exists (String a l), c]. Qed.
Lemma rby_last f l c : f c = false -> rstrip_by f (l +++ String c "") = l +++ String c "".
Proof. intro H. rewrite rby_app; cbn; rewrite H; [reflexivity|discriminate]. Qed.
Lemma rstrip_is_by s : rstrip s = rstrip_by is_space s.
Proof. induction s as [|a s IH]; [reflexivity|]. cbn. now rewrite IH. Qed.
Lemma rby_length f s : String.length (rstrip_by f s) <= String.length s.
Proof. induction s as [|a s IH]; cbn; [lia|]. destruct (rstrip_by f s); cbn in *; [destruct (f a); cbn; lia|lia]. Qed.
Lemma clean_fix s : clean s -> rstrip_by hashy s = s.
Proof.
  intros (O & T & E). destruct (snoc_cases s) as [->|(l & c & ->)]; [reflexivity|]. apply rby_last.
  apply trimmed_fix in T as [_ T]. unfold hashy. destruct (Ascii.eqb_spec c "#") as [->|_].
  { assert (X : endswith "#" (l +++ "#") = true) by (apply endswith_spec; now exists l). rewrite X in E. discriminate. }
  assert (N : is_space c = false).
  { destruct (is_space c) eqn:S; [|reflexivity]. rewrite rstrip_is_by, rby_snoc in T by exact S. pose proof (rby_length is_space l) as L. rewrite T, string_app_length in L. cbn in L. lia. }
  destruct (Ascii.eqb_spec c " ") as [->|_]; [discriminate N|]. destruct (Ascii.eqb_spec c nl) as [->|_]; [discriminate N|]. reflexivity.
Qed.
Lemma strip_blank v : strip v = v -> strip (String " " v) = v.
Proof. intro H. change (String " " v) with (" " +++ v). now rewrite strip_white_l. Qed.

(** * Header lines *)
Lemma header_stripped k v : rstrip_by hashy v = v -> match k with String a _ => hashy a = false | EmptyString => False end ->
  exists w, strip_by hashy ("# " +++ k +++ ": " +++ v +++ String nl "") = k +++ String ":" w /\ strip w = strip v.
Proof.
  intros V K. unfold strip_by. replace (lstrip_by hashy _) with (k +++ ":" +++ " " +++ v +++ String nl "").
  2:{ destruct k as [|a k]; [contradiction|]. cbn [append lstrip_by]. change (hashy "#") with true. change (hashy " ") with true. cbn iota. now rewrite K. }
  rewrite <- !string_app_assoc, rby_snoc by reflexivity. destruct v as [|c v].
  - exists "". split; [|reflexivity]. rewrite string_app_nil_r. change " " with (String " " ""). rewrite rby_snoc by reflexivity. apply rby_last. reflexivity.
  - exists (String " " (String c v)). split.
    + rewrite rby_app by (rewrite V; discriminate). rewrite V, !string_app_assoc. reflexivity.
    + change (String " " (String c v)) with (" " +++ String c v). now rewrite strip_white_l.
Qed.
Lemma split_once_here c l r : has_char c l = false -> split_once c (l +++ String c r) = Some (l, r).
Proof. intro H. apply split_once_some. split; [reflexivity|exact H]. Qed.
Lemma startswith_before p c l r : has_char c p = false -> startswith p (l +++ String c r) = startswith p l.
Proof.
  revert l. induction p as [|x p IH]; intros l H; [now destruct l|]. cbn [has_char] in H. apply orb_false_elim in H as [Hx H].
  destruct l as [|y l]; cbn [append startswith].
  - rewrite Hx. reflexivity.
  - now rewrite IH.
Qed.
(** what a key must be *)
Definition key_ok (k : string) : bool :=
  match k with String a _ => negb (hashy a) | EmptyString => false end && negb (has_char ":" k) && (strip k =?s k) && negb (has_char nl k) && negb (startswith "Param" k).
Lemma key_line_read k v : key_ok k = true -> clean v ->
  let x := strip_by hashy (("# " +++ k +++ ": " +++ v) +++ String nl "") in startswith "Param" x = false /\ meta_pair x = Some (k, v).
Proof.
  unfold key_ok. intros K C. apply andb_prop in K as [K P]. apply andb_prop in K as [K _]. apply andb_prop in K as [K S]. apply andb_prop in K as [K D]. cbv zeta. rewrite !string_app_assoc.
  destruct (header_stripped k v) as (w & -> & W). { now apply clean_fix. } { destruct k; [discriminate|]. now destruct (hashy a). }
  split.
  - rewrite startswith_before by reflexivity. now apply negb_true_iff in P.
  - unfold meta_pair. rewrite split_once_here by now apply negb_true_iff in D. apply String.eqb_eq in S. rewrite S, W. destruct C as (_ & T & _). now rewrite T.
Qed.
Lemma param_line_read k v : has_char "=" k = false -> strip k = k -> clean (str_of v) ->
  let x := strip_by hashy (param_line (k, v) +++ String nl "") in startswith "Param" x = true /\ parm_pair x = Some (k, str_of v).
Proof.
  intros K T C. cbv zeta. assert (X : strip_by hashy (param_line (k, v) +++ String nl "") = "Param: " +++ k +++ String "=" (str_of v)).
  { unfold param_line, strip_by. cbn [fst snd]. change ("# Param: ") with ("# " +++ "Param: ").
    rewrite !string_app_assoc. change (lstrip_by hashy _) with ("Param: " +++ k +++ "=" +++ str_of v +++ String nl "").
    rewrite <- !string_app_assoc, rby_snoc by reflexivity. pose proof (clean_fix _ C) as F. destruct (str_of v) as [|c w] eqn:V.
    - rewrite string_app_nil_r. rewrite (rby_last _ _ "=") by reflexivity. now rewrite !string_app_assoc.
    - rewrite rby_app by (rewrite F; discriminate). rewrite F, !string_app_assoc. reflexivity. }
  rewrite X. split; [reflexivity|]. unfold parm_pair. cbn [append]. change (split_once ":" _) with (Some ("Param", String " " (k +++ String "=" (str_of v)))). cbn iota.
  change (String " " (k +++ String "=" (str_of v))) with (String " " k +++ String "=" (str_of v)). rewrite split_once_here by exact K. rewrite strip_blank by exact T. destruct C as (_ & T2 & _). now rewrite T2.
Qed.
(** the line above a block *)
Definition block_key (k : string) : Prop := exists l, In l block_labels /\ startswith (l +++ " [") k = true.
(** the key and the value it is read as, for component c, file f and variable n *)
Definition label_text (l c f n : string) : string := l +++ " [" +++ c +++ "/" +++ f +++ "] " +++ n.
Definition label_pair (m : dict) (l n : string) (kv : string * string) : Prop :=
  startswith (l +++ " [") (fst kv) = true /\
  forall c f, get m "component" = Some c -> get m "filename" = Some f -> has_char ":" (str_of c) = false -> has_char ":" (str_of f) = false -> has_char ":" n = false -> kv = (strip (label_text l (str_of c) (str_of f) n), "").
Lemma block_line_read m l n h : In l block_labels -> block_line m l n = Some h ->
  let x := strip_by hashy (h +++ String nl "") in startswith "Param" x = false /\ exists kv, meta_pair x = Some kv /\ label_pair m l n kv.
Proof.
  intros L. unfold block_line. destruct (get m "component") as [c|] eqn:Gc; [|discriminate]. destruct (get m "filename") as [f|] eqn:Gf; [|discriminate]. intro H. cbv zeta.
  assert (Eh : h = "# " +++ l +++ " [" +++ str_of c +++ "/" +++ str_of f +++ "] " +++ n +++ ":") by congruence. rewrite Eh. clear Eh H.
  set (t := str_of c +++ "/" +++ str_of f +++ "] " +++ n).
  assert (X : strip_by hashy (("# " +++ l +++ " [" +++ str_of c +++ "/" +++ str_of f +++ "] " +++ n +++ ":") +++ String nl "") = l +++ " [" +++ t +++ ":").
  { unfold strip_by, t. rewrite !string_app_assoc. destruct L as [<-|[<-|[<-|[]]]].
    all: match goal with |- rstrip_by hashy (lstrip_by hashy ("# " +++ ?z)) = _ => change (lstrip_by hashy ("# " +++ z)) with z end;
      rewrite <- !string_app_assoc, rby_snoc by reflexivity; now rewrite (rby_last _ _ ":") by reflexivity. }
  rewrite X. split; [now destruct L as [<-|[<-|[<-|[]]]]|]. unfold meta_pair. destruct (split_once ":" (l +++ " [" +++ t +++ ":")) as [[k v]|] eqn:E.
  - exists (strip k, strip v). split; [reflexivity|]. split.
    2:{ intros c' f' Ec Ef Nc Nf Nn. assert (c' = c) by congruence. assert (f' = f) by congruence. subst c' f'. rewrite <- string_app_assoc in E. assert (Eq : l +++ " [" +++ t +++ ":" = (l +++ " [" +++ t) +++ ":") by now rewrite !string_app_assoc.
        rewrite string_app_assoc, Eq in E. rewrite split_once_here in E; [injection E as <- <-; reflexivity|].
        unfold t. rewrite !has_char_app, Nc, Nf, Nn. now destruct L as [<-|[<-|[<-|[]]]]. }
    apply split_once_some in E as [E N]. cbn [fst].
    assert (K : exists k', k = (l +++ " [") +++ k').
    { rewrite <- string_app_assoc in E. assert (C : has_char ":" (l +++ " [") = false) by now destruct L as [<-|[<-|[<-|[]]]].
      revert E C. generalize (l +++ " [") as p. clear. intro p. revert k. induction p as [|a p IH]; intros k E C; [now exists k|]. cbn [has_char] in C. apply orb_false_elim in C as [Ca C].
      destruct k as [|b k]; cbn [append] in E; injection E as -> E; [now rewrite Ascii.eqb_refl in Ca|]. destruct (IH _ E C) as (k' & ->). now exists k'. }
    destruct K as (k' & ->). apply startswith_spec. exists (rstrip k'). unfold strip. replace (lstrip ((l +++ " [") +++ k')) with ((l +++ " [") +++ k') by now destruct L as [<-|[<-|[<-|[]]]].
    apply rstrip_app_fix. now destruct L as [<-|[<-|[<-|[]]]].
  - exfalso. apply split_once_none in E. rewrite !has_char_app in E. cbn in E. now rewrite !orb_true_r in E.
Qed.

(** * Rows *)
Fixpoint spaceless (s : string) : bool := match s with EmptyString => true | String a t => negb (is_space a) && spaceless t end.
(** what is printed for a number *)
Definition word (s : string) : Prop := s <> "" /\ spaceless s = true /\ startswith "#" s = false.
Lemma fields_space s a t : is_space a = true -> fields (s +++ String a t) = fields s ++ fields t.
Proof.
  intro H. induction s as [|b s IH]; cbn [append fields]; [now rewrite H|]. destruct (is_space b); [now rewrite IH|]. rewrite IH.
  destruct (fields s) as [|w ws] eqn:E; [|reflexivity]. destruct s as [|c s]; [discriminate|]. cbn in E. destruct (is_space c); [discriminate|]. destruct (fields s); discriminate.
Qed.
Lemma fields_word s : spaceless s = true -> fields s = [s].
Proof. induction s as [|a s IH]; [reflexivity|]. cbn. destruct (is_space a); [discriminate|]. cbn. intro H. now rewrite (IH H). Qed.
Lemma split_ws_white_l w s : white w = true -> split_ws (w +++ s) = split_ws s.
Proof. induction w as [|a w IH]; [reflexivity|]. cbn [white]. intro H. apply andb_prop in H as [Ha H]. unfold split_ws in *. cbn [append fields]. rewrite Ha. cbn. exact (IH H). Qed.
Lemma split_ws_white w : white w = true -> split_ws w = [].
Proof. intro H. rewrite <- (string_app_nil_r w). now rewrite split_ws_white_l. Qed.
Lemma split_ws_white_r w s : white w = true -> split_ws (s +++ w) = split_ws s.
Proof.
  destruct w as [|a w]; [now rewrite string_app_nil_r|]. cbn [white]. intro H. apply andb_prop in H as [Ha H]. unfold split_ws. rewrite fields_space by exact Ha. rewrite filter_app.
  change (filter nonempty (fields w)) with (split_ws w). rewrite split_ws_white by exact H. now rewrite app_nil_r.
Qed.
Lemma split_ws_strip s : split_ws (strip s) = split_ws s.
Proof. destruct (strip_split s) as (w & w' & W & W' & E). rewrite E at 2. now rewrite split_ws_white_l, split_ws_white_r. Qed.
Lemma split_ws_join ws : Forall word ws -> split_ws (join " " ws) = ws.
Proof.
  induction 1 as [|w ws (N & S & _) H IH]; [reflexivity|]. destruct ws as [|x ws].
  - cbn [join]. unfold split_ws. rewrite fields_word by exact S. destruct w; [congruence|reflexivity].
  - change (join " " (w :: x :: ws)) with (w +++ String " " (join " " (x :: ws))). unfold split_ws in *. rewrite fields_space by reflexivity. rewrite filter_app, fields_word, IH by exact S. destruct w; [congruence|reflexivity].
Qed.
Lemma spaceless_line s : spaceless s = true -> has_char nl s = false.
Proof. induction s as [|a s IH]; [reflexivity|]. cbn. intro H. apply andb_prop in H as [Ha H]. rewrite (IH H). destruct (Ascii.eqb_spec a nl) as [->|]; [discriminate|reflexivity]. Qed.
Lemma join_words_line ws : Forall word ws -> oneline (join " " ws).
Proof.
  induction 1 as [|w ws (N & S & _) H IH]; [reflexivity|]. apply spaceless_line in S. destruct ws as [|x ws]; [exact S|].
  change (join " " (w :: x :: ws)) with (w +++ String " " (join " " (x :: ws))). unfold oneline in *. rewrite has_char_app, S. exact IH.
Qed.
Lemma join_words_data ws : Forall word ws -> is_header (join " " ws +++ String nl "") = false.
Proof.
  intro H. destruct H as [|w ws (N & _ & S) H]; [reflexivity|]. destruct w as [|a w]; [congruence|]. cbn in S. destruct ws; cbn.
  all: destruct (Ascii.eqb_spec a "#") as [->|]; [|reflexivity]; destruct w; discriminate.
Qed.

(** * Lists *)
Lemma all_some_app {A} (a b : list (option A)) x y : all_some a = Some x -> all_some b = Some y -> all_some (a ++ b) = Some (x ++ y).
Proof. revert x. induction a as [|[o|] a IH]; intros x; cbn; intros H1 H2; [now inversion H1; subst| |discriminate]. destruct (all_some a) eqn:E; [|discriminate]. inversion H1; subst. now rewrite (IH _ eq_refl H2). Qed.
Lemma all_some_map {A B} (f : A -> option B) (g : A -> B) l : (forall x, In x l -> f x = Some (g x)) -> all_some (map f l) = Some (map g l).
Proof. induction l as [|x l IH]; intro H; [reflexivity|]. cbn. rewrite (H x) by now left. rewrite IH by (intros; apply H; now right). reflexivity. Qed.
Lemma all_some_inv {A B} (f : A -> option B) l r : all_some (map f l) = Some r -> Forall2 (fun x y => f x = Some y) l r.
Proof. revert r. induction l as [|x l IH]; intros r; cbn; [intro H; inversion H; constructor|]. destruct (f x) eqn:E; [|discriminate]. destruct (all_some _); [|discriminate]. intro H. inversion H; subst. constructor; auto. Qed.
Lemma filter_all {A} (f : A -> bool) l : (forall x, In x l -> f x = true) -> filter f l = l.
Proof. induction l as [|x l IH]; intro H; [reflexivity|]. cbn. rewrite (H x) by now left. rewrite IH by (intros; apply H; now right). reflexivity. Qed.
Lemma filter_none {A} (f : A -> bool) l : (forall x, In x l -> f x = false) -> filter f l = [].
Proof. induction l as [|x l IH]; intro H; [reflexivity|]. cbn. rewrite (H x) by now left. apply IH. intros; apply H; now right. Qed.

(** * Dictionaries *)
Lemma fold_dict_get l : forall d k, get (fold_left (fun d (kv : string * string) => set d (fst kv) (VS (snd kv))) l d) k =
  match find (fun kv : string * string => fst kv =?s k) (rev l) with Some kv => Some (VS (snd kv)) | None => get d k end.
Proof.
  induction l as [|[a v] l IH]; intros d k; [reflexivity|]. cbn [fold_left rev fst snd]. rewrite IH, get_set.
  assert (F : forall (r : list (string * string)) x, find (fun kv : string * string => fst kv =?s k) (r ++ [x]) = match find (fun kv : string * string => fst kv =?s k) r with Some y => Some y | None => if fst x =?s k then Some x else None end).
  { clear. induction r as [|y r IH]; intro x; cbn; [reflexivity|]. destruct (fst y =?s k); [reflexivity|apply IH]. }
  rewrite F. destruct (find _ (rev l)); [reflexivity|]. cbn. now destruct (a =?s k).
Qed.
Lemma to_dict_some l k v : In (k, v) l -> (forall w, In (k, w) l -> w = v) -> get (to_dict l) k = Some (VS v).
Proof.
  intros I U. unfold to_dict. rewrite fold_dict_get. destruct (find _ (rev l)) as [[a w]|] eqn:F.
  - apply find_some in F as [F E]. cbn in E. apply String.eqb_eq in E as ->. rewrite <- in_rev in F. cbn. now rewrite (U w F).
  - exfalso. rewrite in_rev in I. eapply find_none in F; [|exact I]. cbn in F. now rewrite String.eqb_refl in F.
Qed.
Lemma to_dict_none l k : ~ In k (map fst l) -> get (to_dict l) k = None.
Proof.
  intro N. unfold to_dict. rewrite fold_dict_get. destruct (find _ (rev l)) as [[a w]|] eqn:F; [|reflexivity].
  apply find_some in F as [F E]. cbn in E. apply String.eqb_eq in E as ->. rewrite <- in_rev in F. exfalso. apply N. now apply (in_map fst) in F.
Qed.
Lemma set_new d k v : ~ In k (keys d) -> set d k v = d ++ [(k, v)].
Proof. induction d as [|[a w] d IH]; intro N; [reflexivity|]. cbn in *. destruct (String.eqb_spec a k) as [->|]; [exfalso; apply N; now left|]. now rewrite IH by tauto. Qed.
Lemma to_dict_nodup l : NoDup (map fst l) -> to_dict l = map (fun kv : string * string => (fst kv, VS (snd kv))) l.
Proof.
  intro N. unfold to_dict. rewrite <- (app_nil_l (map _ l)). assert (D : forall x, In x (map fst l) -> ~ In x (keys [])) by (intros x _ []). revert N D. generalize (@nil (string * mval)) as d.
  induction l as [|[a v] l IH]; intros d N D; cbn; [now rewrite app_nil_r|]. inversion N as [|? ? Na Nl]; subst. cbn in D.
  rewrite set_new by (apply D; now left). rewrite IH; [now rewrite <- app_assoc|exact Nl|]. intros x I. unfold keys. rewrite map_app, in_app_iff. cbn. intros [J|[<-|[]]]; [|contradiction]. exact (D x (or_intror I) J).
Qed.
Lemma to_dict_keys l : NoDup (keys (to_dict l)).
Proof.
  unfold to_dict. assert (N : NoDup (keys [])) by constructor. revert N. generalize (@nil (string * mval)) as d. induction l as [|[a v] l IH]; intros d N; [exact N|]. cbn. apply IH.
  destruct (get d a) as [w|] eqn:G; [now rewrite (set_keys _ _ _ w G)|]. apply get_none in G. rewrite set_new by exact G. unfold keys in *. rewrite map_app. cbn. rewrite <- (rev_involutive (map fst d ++ [a])). apply NoDup_rev. rewrite rev_app_distr. cbn. constructor; [now rewrite <- in_rev|]. now apply NoDup_rev.
Qed.

(** * Arrays *)
Lemma chunks {A} (l : list A) c n : forall s, (s + n) * c <= List.length l -> List.concat (map (fun k => firstn c (skipn (k * c) l)) (seq s n)) = firstn (n * c) (skipn (s * c) l).
Proof.
  induction n as [|n IH]; intros s H; [reflexivity|]. cbn [seq map List.concat]. rewrite IH by lia.
  assert (E : firstn (S n * c) (skipn (s * c) l) = firstn c (skipn (s * c) l) ++ firstn (n * c) (skipn c (skipn (s * c) l))).
  { clear IH. assert (L : c <= List.length (skipn (s * c) l)) by (rewrite skipn_length; nia). generalize dependent (skipn (s * c) l). intros m L. cbn [mult].
    rewrite <- (firstn_skipn c m) at 1. rewrite firstn_app. rewrite firstn_length_le by exact L. rewrite firstn_firstn, Nat.min_r by lia. now replace (c + n * c - c) with (n * c) by lia. }
  rewrite E. f_equal. f_equal. assert (Sk : forall (a b : nat) (m : list A), skipn a (skipn b m) = skipn (b + a) m).
  { clear. intros a b. induction b as [|b IH]; intro m; [reflexivity|]. destruct m; [now rewrite !skipn_nil|]. cbn. apply IH. }
  rewrite Sk. f_equal. lia.
Qed.
Lemma chunk_length {A} (l : list A) c k : (S k) * c <= List.length l -> List.length (firstn c (skipn (k * c) l)) = c.
Proof. intro H. apply firstn_length_le. rewrite skipn_length. lia. Qed.
Lemma columns_length r c l n : forall s, List.length (flat_map (fun j => column c j l r) (seq s n)) = n * r.
Proof. induction n as [|n IH]; intro s; [reflexivity|]. cbn [seq flat_map]. rewrite app_length, IH. unfold column. rewrite map_length, seq_length. lia. Qed.
Lemma transpose_back r c l : List.length l = r * c -> transpose c r (transpose r c l) = l.
Proof.
  intro L. assert (L2 : List.length (transpose c r (transpose r c l)) = r * c) by (unfold transpose; rewrite columns_length; lia).
  apply (nth_ext _ _ 0%Qc 0%Qc); [congruence|]. rewrite L2. intros n Hn.
  destruct c as [|c]; [lia|]. pose proof (Nat.div_mod n (S c) ltac:(lia)) as D. pose proof (Nat.mod_upper_bound n (S c) ltac:(lia)) as M.
  set (i := n / S c) in *. set (j := n mod S c) in *. assert (Hi : i < r) by (destruct (Nat.lt_ge_cases i r); [assumption|nia]).
  replace n with (i * S c + j) by lia. rewrite transpose_nth by lia. rewrite transpose_nth by lia. reflexivity.
Qed.

(** * What a file must be *)
(** the keys that are kept, by kind *)
Definition common_keys : list string :=
  ["Format"; "URL"; "Creator"; "Instrument"; "Ncount"; "Trace"; "Gravitation"; "Seed"; "Directory"; "Date"; "type"; "Source"; "component"; "position"; "title"; "filename";
   "statistics"; "signal"; "values"; "yvar"; "ylabel"; "variables"].
Definition kept (k : kind) : list string :=
  common_keys ++ match k with D0 => ["xlimits"] | D1 => ["xvar"; "xlabel"; "xlimits"] | D2 => ["xvar"; "xlabel"; "zvar"; "zlabel"; "xylimits"] end.
Definition array_name (k : kind) : string := match k with D0 => "array_0d" | D1 => "array_1d" | D2 => "array_2d" end.
(** the data: a table of at least one line, with as many columns as there are variables but not as many lines; or a table for each of at most three variables *)
Definition shape_ok (d : dat) : Prop :=
  let nv := List.length (variables d) in
  match dkind d with
  | D0 => shape (data d) = [nv]
  | D1 => exists nx, shape (data d) = [nv; nx] /\ nx <> 0 /\ nx <> nv
  | D2 => exists ny nx, shape (data d) = [nv; ny; nx] /\ ny <> 0 /\ nv <= 3
  end.
Definition param_ok (kv : string * mval) : Prop := oneline (fst kv) /\ strip (fst kv) = fst kv /\ has_char "=" (fst kv) = false /\ clean (str_of (snd kv)).
Definition sound_texts (d : dat) : Prop :=
  made d /\
  (exists t, get (metadata d) "type" = Some (VS t) /\ startswith (array_name (dkind d)) t = true) /\
  (exists v, get (metadata d) "variables" = Some v /\ variables d = split_char " " (str_of v)) /\
  (forall k v, In k (kept (dkind d)) -> get (metadata d) k = Some v -> clean (str_of v)) /\
  Forall param_ok (parameters d).
Definition sound (d : dat) : Prop := shape_ok d /\ sound_texts d.
Definition complete (d : dat) : Prop := forall k, In k (kept (dkind d)) -> get (metadata d) k <> None.
(** the same file, with the texts of its values *)
Definition as_text (v : mval) : mval := VS (str_of v).
Definition same_texts (d d' : dat) : Prop :=
  dkind d' = dkind d /\ variables d' = variables d /\
  parameters d' = map (fun kv : string * mval => (fst kv, as_text (snd kv))) (parameters d) /\
  (forall k, In k (kept (dkind d)) -> get (metadata d') k = option_map as_text (get (metadata d) k)) /\
  (forall k, ~ In k (kept (dkind d)) -> get (metadata d') k <> None -> dkind d = D2 /\ block_key k).
Definition same_file (d d' : dat) : Prop := data d' = data d /\ same_texts d d'.
(** numbers are printed as words that are read as the same number *)
Definition printable (show : Qc -> string) (parse : string -> option Qc) (x : Qc) : Prop := word (show x) /\ parse (show x) = Some x.

Lemma kept_written k x : In x (kept k) <-> In x (first_keys ++ second_keys k).
Proof.
  assert (S : forall l l', forallb (fun x => existsb (String.eqb x) l') l = true -> In x l -> In x l').
  { clear. intros l l' H I. rewrite forallb_forall in H. specialize (H x I). apply existsb_exists in H as (y & J & E). apply String.eqb_eq in E. now subst. }
  split; apply S; destruct k; reflexivity.
Qed.
Lemma written_ok k : forallb key_ok (first_keys ++ second_keys k) = true.
Proof. destruct k; reflexivity. Qed.
Lemma kept_not_block k x : In x (kept k) -> ~ block_key x.
Proof.
  intros I (l & L & S). assert (B : forallb (fun x => forallb (fun l => negb (startswith (l +++ " [") x)) block_labels) (kept k) = true) by (destruct k; reflexivity).
  rewrite forallb_forall in B. specialize (B x I). rewrite forallb_forall in B. specialize (B l L). now rewrite S in B.
Qed.

(** the lines of the keys *)
Definition addnl (l : string) : string := l +++ String nl "".
Definition headers (ls : list string) : list string := map (strip_by hashy) (filter is_header (map addnl ls)).
Definition others (ls : list string) : list string := filter (fun x => negb (is_header x)) (map addnl ls).
Lemma headers_app a b : headers (a ++ b) = headers a ++ headers b.
Proof. unfold headers. now rewrite map_app, filter_app, map_app. Qed.
Lemma others_app a b : others (a ++ b) = others a ++ others b.
Proof. unfold others. now rewrite map_app, filter_app. Qed.
Lemma clean_line k v : key_ok k = true -> clean v -> oneline ("# " +++ k +++ ": " +++ v).
Proof.
  unfold key_ok. intros K (O & _). apply andb_prop in K as [K _]. apply andb_prop in K as [_ K]. apply negb_true_iff in K. unfold oneline in *. rewrite !has_char_app, K, O. reflexivity.
Qed.
Definition key_line (m : dict) (k : string) : string := "# " +++ k +++ ": " +++ match get m k with Some v => str_of v | None => "" end.
Lemma key_lines_all m l : (forall k, In k l -> get m k <> None) -> key_lines m l = Some (map (key_line m) l).
Proof. intro H. unfold key_lines. apply all_some_map. intros k I. specialize (H k I). unfold key_line. destruct (get m k); [reflexivity|congruence]. Qed.
Definition value_text (m : dict) (k : string) : string := match get m k with Some v => str_of v | None => "" end.
Lemma keys_read m l : forallb key_ok l = true -> (forall k, In k l -> clean (value_text m k)) ->
  Forall oneline (map (key_line m) l) /\ others (map (key_line m) l) = [] /\
  filter (startswith "Param") (headers (map (key_line m) l)) = [] /\
  all_some (map meta_pair (filter (fun x => negb (startswith "Param" x)) (headers (map (key_line m) l)))) = Some (map (fun k => (k, value_text m k)) l).
Proof.
  induction l as [|k l IH]; intros K C; [repeat split; constructor|]. cbn [forallb] in K. apply andb_prop in K as [K Ks]. destruct (IH Ks (fun k I => C k (or_intror I))) as (A1 & A2 & A3 & A4).
  pose proof (C k (or_introl eq_refl)) as Ck. destruct (key_line_read k _ K Ck) as [P1 P2]. cbn [map].
  assert (Hd : headers (key_line m k :: map (key_line m) l) = strip_by hashy (key_line m k +++ String nl "") :: headers (map (key_line m) l)) by reflexivity.
  rewrite Hd. cbn [filter]. fold (value_text m k) in *. change (strip_by hashy (key_line m k +++ String nl "")) with (strip_by hashy (("# " +++ k +++ ": " +++ value_text m k) +++ String nl "")). rewrite P1.
  cbn [negb map all_some]. rewrite P2, A4. repeat split; [|exact A2|exact A3].
  constructor; [|exact A1]. now apply clean_line.
Qed.
Lemma params_read l : Forall param_ok l ->
  Forall oneline (map param_line l) /\ others (map param_line l) = [] /\
  filter (fun x => negb (startswith "Param" x)) (headers (map param_line l)) = [] /\
  all_some (map parm_pair (filter (startswith "Param") (headers (map param_line l)))) = Some (map (fun kv : string * mval => (fst kv, str_of (snd kv))) l).
Proof.
  induction 1 as [|[k v] l (O & T & E & C) H (A1 & A2 & A3 & A4)]; [repeat split; constructor|]. cbn [fst snd] in *. destruct (param_line_read k v E T C) as [P1 P2].
  assert (Hd : headers (map param_line ((k, v) :: l)) = strip_by hashy (param_line (k, v) +++ String nl "") :: headers (map param_line l)) by reflexivity.
  rewrite Hd. cbn [filter]. rewrite P1. cbn [negb map all_some fst snd]. rewrite P2, A4. repeat split; [|exact A2|exact A3].
  constructor; [|exact A1]. destruct C as (C & _). unfold oneline, param_line in *. cbn [fst snd]. now rewrite !has_char_app, O, C.
Qed.

Section Round.
  Variable show : Qc -> string.
  Variable parse : string -> option Qc.
  Notation row_line := (row_line show).
  Lemma row_words r : Forall (printable show parse) r -> Forall word (map show r).
  Proof. induction 1 as [|x r (W & _) H IH]; constructor; auto. Qed.
  Lemma row_read r : Forall (printable show parse) r -> read_row parse (row_line r +++ String nl "") = Some r.
  Proof.
    intro H. unfold read_row, row_line. rewrite split_ws_strip, split_ws_white_r, split_ws_join by (reflexivity || now apply row_words).
    induction H as [|x r (_ & P) H IH]; [reflexivity|]. cbn. now rewrite P, IH.
  Qed.
  Lemma rows_read rs : Forall (Forall (printable show parse)) rs ->
    Forall oneline (map row_line rs) /\ headers (map row_line rs) = [] /\ all_some (map (read_row parse) (others (map row_line rs))) = Some rs.
  Proof.
    induction 1 as [|r rs Hr H (A1 & A2 & A3)]; [repeat split; constructor|]. pose proof (join_words_data _ (row_words _ Hr)) as D. change (is_header (addnl (row_line r)) = false) in D.
    repeat split.
    - constructor; [apply join_words_line; now apply row_words|exact A1].
    - unfold headers in *. cbn [map filter]. now rewrite D.
    - unfold others in *. cbn [map filter]. rewrite D. cbn [negb map all_some]. unfold addnl at 1. rewrite row_read by exact Hr. now rewrite A3.
  Qed.
  Lemma firstn_Forall {A} (P : A -> Prop) n l : Forall P l -> Forall P (firstn n l).
  Proof. intro H. revert n. induction H; intros [|n]; cbn; constructor; auto. Qed.
  Lemma skipn_Forall {A} (P : A -> Prop) n l : Forall P l -> Forall P (skipn n l).
  Proof. intro H. revert n. induction H; intros [|n]; cbn; auto. Qed.
  Lemma blocks_read m nv ny nx l vs : forall i, Forall (printable show parse) l -> i + List.length vs = nv -> nv <= 3 -> clean (value_text m "component") -> clean (value_text m "filename") ->
    get m "component" <> None -> get m "filename" <> None -> Forall oneline vs ->
    exists c labs, blocks show m nv ny nx i l vs = Some c /\ Forall oneline c /\ filter (startswith "Param") (headers c) = [] /\
      all_some (map meta_pair (filter (fun x => negb (startswith "Param" x)) (headers c))) = Some labs /\ Forall2 (fun ln kv => label_pair m (fst ln) (snd ln) kv) (List.combine (skipn i block_labels) vs) labs /\
      all_some (map (read_row parse) (others c)) = Some (map (fun k => firstn nx (skipn (k * nx) l)) (seq (i * ny) (List.length vs * ny))).
  Proof.
    induction vs as [|n vs IH]; intros i P E L Cc Cf Gc Gf V.
    { exists [], []. repeat split; try constructor. destruct (skipn i block_labels); constructor. }
    inversion V as [|? ? Vn Vs]; subst. cbn [List.length] in *. destruct (IH (S i)) as (c & labs & B & A1 & A2 & A3 & A4 & A5); auto; [lia|].
    cbn [blocks]. rewrite B. destruct (nth_error block_labels i) as [lab|] eqn:Lb; [|apply nth_error_None in Lb; cbn in Lb; lia]. assert (Ls : skipn i block_labels = lab :: skipn (S i) block_labels) by (clear -Lb; revert Lb; generalize block_labels as bl; induction i as [|i IHi]; intros [|b bl] Lb; cbn in Lb |- *; try discriminate; [congruence|exact (IHi _ Lb)]). apply nth_error_In in Lb.
    destruct (block_line m lab n) as [h|] eqn:Bl; [|unfold block_line in Bl; destruct (get m "component"); [destruct (get m "filename")|]; congruence].
    destruct (block_line_read _ _ _ _ Lb Bl) as (H1 & kv & H2 & H3).
    replace (i <? i + S (List.length vs)) with true by (symmetry; apply Nat.ltb_lt; lia).
    set (rs := map (fun j => firstn nx (skipn ((i * ny + j) * nx) l)) (seq 0 ny)).
    assert (Rs : block_rows show ny nx i l = map row_line rs) by (unfold block_rows, rs; now rewrite map_map).
    assert (Pr : Forall (Forall (printable show parse)) rs) by (apply Forall_forall; intros r I; apply in_map_iff in I as (j & <- & _); now apply firstn_Forall, skipn_Forall).
    destruct (rows_read rs Pr) as (R1 & R2 & R3).
    assert (Hh : exists t, h = "# " +++ lab +++ " [" +++ t /\ oneline h).
    { unfold block_line in Bl. unfold value_text in Cc, Cf. destruct (get m "component") as [cc|]; [|discriminate]. destruct (get m "filename") as [ff|]; [|discriminate].
      assert (Eh : h = "# " +++ lab +++ " [" +++ str_of cc +++ "/" +++ str_of ff +++ "] " +++ n +++ ":") by congruence. eexists. split; [exact Eh|]. rewrite Eh. destruct Cc as (Cc & _), Cf as (Cf & _). unfold oneline in *.
      rewrite !has_char_app, Cc, Cf, Vn. now destruct Lb as [<-|[<-|[<-|[]]]]. }
    destruct Hh as (t & Et & Oh).
    exists (h :: map row_line rs ++ c), (kv :: labs). rewrite Rs.
    assert (Hd : headers (h :: map row_line rs ++ c) = strip_by hashy (h +++ String nl "") :: headers c).
    { change (h :: map row_line rs ++ c) with ([h] ++ (map row_line rs ++ c)). rewrite !headers_app, R2. rewrite Et. reflexivity. }
    assert (Ot : others (h :: map row_line rs ++ c) = others (map row_line rs) ++ others c).
    { change (h :: map row_line rs ++ c) with ([h] ++ (map row_line rs ++ c)). rewrite !others_app. rewrite Et. reflexivity. }
    rewrite Hd, Ot. cbn [filter]. rewrite H1. cbn [negb map all_some]. rewrite H2, A3. split; [reflexivity|]. split; [constructor; [exact Oh|apply Forall_app; now split]|]. split; [exact A2|]. split; [reflexivity|].
    split; [rewrite Ls; cbn [List.combine]; constructor; [exact H3|exact A4]|]. rewrite map_app. rewrite (all_some_app _ _ _ _ R3 A5). f_equal. cbn [mult]. rewrite seq_app, map_app. f_equal.
    - unfold rs. clear. assert (Sh : forall n s, seq s n = map (fun j => s + j) (seq 0 n)) by (clear; induction n as [|n IH]; intro s; [reflexivity|]; cbn; f_equal; [lia|]; rewrite (IH (S s)), <- seq_shift, map_map; apply map_ext; intro; lia).
      rewrite (Sh ny (i * ny)), map_map. reflexivity.
    - do 2 f_equal. lia.
  Qed.
  Lemma array_table rows c : rows <> [] -> Forall (fun r => List.length r = c) rows -> array rows = Some (mkArr [List.length rows; c] (List.concat rows)).
  Proof.
    intros N H. destruct rows as [|r rows]; [congruence|]. inversion H as [|? ? Hr Hs]; subst. unfold array. replace (forallb _ _) with true; [reflexivity|].
    symmetry. apply forallb_forall. intros x I. rewrite Forall_forall in H. now rewrite (H x I), Nat.eqb_refl.
  Qed.
  Lemma split_char_lines c s : oneline s -> Forall oneline (split_char c s).
  Proof. intro O. apply Forall_forall. intros x I. apply split_char_part in I. now apply (part_char _ _ _ I). Qed.
  Lemma zshape_not a l : map Z.of_nat (shape a) <> l -> zshape_is a l = false.
  Proof. intro H. destruct (zshape_is a l) eqn:E; [|reflexivity]. now apply zshape_is_refl in E. Qed.
  Lemma kept_value d k : sound_texts d -> complete d -> In k (kept (dkind d)) -> clean (value_text (metadata d) k).
  Proof. intros (_ & _ & _ & C & _) K I. specialize (K k I). unfold value_text. destruct (get (metadata d) k) eqn:G; [|congruence]. exact (C k m I G). Qed.
  Definition labs_of (d : dat) (labs : list (string * string)) : Prop :=
    match dkind d with D2 => Forall2 (fun ln kv => label_pair (metadata d) (fst ln) (snd ln) kv) (List.combine block_labels (variables d)) labs | _ => labs = [] end.
  Lemma labs_of_block d labs : labs_of d labs -> forall kv, In kv labs -> dkind d = D2 /\ block_key (fst kv).
  Proof.
    unfold labs_of. intros H kv I. destruct (dkind d); [subst; contradiction|subst; contradiction|]. split; [reflexivity|].
    assert (G : forall ls, Forall (fun l => In l block_labels) ls -> forall vs, Forall2 (fun ln kv => label_pair (metadata d) (fst ln) (snd ln) kv) (List.combine ls vs) labs -> block_key (fst kv)).
    { clear H. induction labs as [|y labs IH]; [contradiction|]. intros ls Fl vs H. destruct ls as [|x ls]; [inversion H|]. destruct vs as [|v vs]; [inversion H|]. cbn [List.combine] in H. inversion H as [|? ? ? ? H1 H2]; subst. inversion Fl as [|? ? F1 F2]; subst.
      destruct I as [->|I]; [exists x; split; [exact F1|apply H1]|]. exact (IH I ls F2 vs H2). }
    exact (G block_labels ltac:(apply Forall_forall; auto) (variables d) H).
  Qed.
  Definition reads_back (d : dat) (x : arr) : Prop :=
    exists c labs rows a, data_lines show d = Some c /\ Forall oneline c /\ filter (startswith "Param") (headers c) = [] /\
      all_some (map meta_pair (filter (fun x => negb (startswith "Param" x)) (headers c))) = Some labs /\ labs_of d labs /\
      all_some (map (read_row parse) (others c)) = Some rows /\ array rows = Some a /\
      forall m p, get m "type" = get (metadata d) "type" -> post_init (mkDat (dkind d) m p (variables d) a) = Some (mkDat (dkind d) m p (variables d) x).
  Lemma data_read d : sound d -> complete d -> Forall (printable show parse) (flat (data d)) -> reads_back d (data d).
  Proof.
    intros So0 K P. pose proof So0 as (Sh & So). pose proof So as ((Pi & W & _) & _ & (vv & Gv & Ev) & _). unfold reads_back. unfold shape_ok in Sh. unfold data_lines. unfold well_shaped, size in W. destruct d as [k m p v [sh l]]. cbn [dkind metadata parameters variables data shape flat] in *.
    set (nv := List.length v) in *. destruct k.
    - subst sh. cbn in W. assert (Fr : Forall (Forall (printable show parse)) [l]) by (constructor; [exact P|constructor]). destruct (rows_read [l] Fr) as (A1 & A2 & A3).
      exists [row_line l], [], [l], (mkArr [1; nv] l). split; [reflexivity|]. split; [exact A1|]. change (map row_line [l]) with [row_line l] in *. rewrite A2. do 2 (split; [now constructor|]). split; [unfold labs_of; cbn [dkind]; reflexivity|]. split; [exact A3|]. split.
      { rewrite (array_table [l] nv); [cbn; now rewrite app_nil_r|discriminate|constructor; [lia|constructor]]. }
      intros m' p' _. unfold post_init. cbn [dkind variables data shape flat]. fold nv. destruct (nats_eqb [1; nv] [nv]) eqn:N; [apply nats_eqb_eq in N; discriminate|].
      unfold size. cbn [shape fold_right]. replace (1 * (nv * 1) =? nv) with true by (symmetry; apply Nat.eqb_eq; lia). reflexivity.
    - destruct Sh as (nx & -> & N0 & Ne). cbn in W. rewrite Nat.mul_1_r in W. set (rows := map (fun j => column nx j l nv) (seq 0 nx)).
      assert (Fr : Forall (Forall (printable show parse)) rows).
      { apply Forall_forall. intros r I. apply in_map_iff in I as (j & <- & Ij). apply in_seq in Ij. apply Forall_forall. intros x Ix. apply in_map_iff in Ix as (i & <- & Ii). apply in_seq in Ii.
        rewrite Forall_forall in P. apply P. apply nth_In. rewrite W. nia. }
      destruct (rows_read rows Fr) as (A1 & A2 & A3). exists (map row_line rows), [], rows, (mkArr [nx; nv] (transpose nv nx l)).
      split; [unfold rows; now rewrite map_map|]. split; [exact A1|]. rewrite A2. do 2 (split; [now constructor|]). split; [unfold labs_of; cbn [dkind]; reflexivity|]. split; [exact A3|]. split.
      { rewrite (array_table rows nv).
        - unfold rows. rewrite map_length, seq_length. unfold transpose. now rewrite flat_map_concat_map.
        - unfold rows. destruct nx; [congruence|discriminate].
        - apply Forall_forall. intros r I. apply in_map_iff in I as (j & <- & _). unfold column. now rewrite map_length, seq_length. }
      intros m' p' T. assert (Nx : nx_of m' = Some (Z.of_nat nx)).
      { unfold nx_of, type_text in *. rewrite T. clear -Pi Ne. unfold post_init in Pi. cbn [dkind variables data shape metadata flat] in Pi. fold nv in Pi. unfold nx_of, type_text in Pi. destruct (match match get m "type" with Some (VS s) => _ | _ => None end with Some s => py_int (strip_close s) | None => None end) as [z|] eqn:Z0; [|discriminate].
        destruct (zshape_is _ _) eqn:Zs; [apply zshape_is_refl in Zs; cbn in Zs; injection Zs as <-; reflexivity|].
        destruct (_ && _) eqn:E; [|discriminate]. apply andb_prop in E as [_ E]. apply Nat.eqb_eq in E. congruence. }
      unfold post_init. cbn [dkind variables data shape metadata flat]. fold nv. rewrite Nx. rewrite zshape_not by (cbn; intro H; injection H as H1 H2; lia).
      rewrite Z.eqb_refl, Nat.eqb_refl. cbn [andb]. rewrite transpose_back by exact W. reflexivity.
    - destruct Sh as (ny & nx & -> & N0 & L3). cbn in W. rewrite Nat.mul_1_r in W.
      assert (Kc : In "component" (kept D2)) by (cbn; tauto). assert (Kf : In "filename" (kept D2)) by (cbn; tauto).
      pose proof (kept_value (mkDat D2 m p v (mkArr [nv; ny; nx] l)) "component" So K Kc) as Cc. pose proof (kept_value (mkDat D2 m p v (mkArr [nv; ny; nx] l)) "filename" So K Kf) as Cf. cbn [metadata] in Cc, Cf.
      assert (Ov : Forall oneline v). { rewrite Ev. apply split_char_lines. destruct So as (_ & _ & _ & C & _). cbn [dkind metadata] in C. exact (proj1 (C "variables" vv ltac:(cbn; tauto) Gv)). }
      destruct (blocks_read m nv ny nx l v 0 P eq_refl L3 Cc Cf (K _ Kc) (K _ Kf) Ov) as (c & labs & B & A1 & A2 & A3 & A4 & A5).
      assert (Lv : nv <> 0). { unfold nv. rewrite Ev. pose proof (split_char_nonempty " " (str_of vv)). destruct (split_char " " (str_of vv)); [congruence|discriminate]. }
      fold nv in A5. cbn [mult] in A5.
      exists c, labs. eexists. exists (mkArr [nv * ny; nx] l). split; [exact B|]. split; [exact A1|]. split; [exact A2|]. split; [exact A3|]. split; [exact A4|]. split; [exact A5|]. split.
      { rewrite (array_table _ nx).
        - rewrite map_length, seq_length. rewrite (chunks l nx (nv * ny) 0) by (cbn; nia). cbn [mult skipn]. rewrite firstn_all2 by nia. reflexivity.
        - assert (X : nv * ny <> 0) by nia. destruct (nv * ny); [congruence|discriminate].
        - apply Forall_forall. intros r I. apply in_map_iff in I as (j & <- & Ij). apply in_seq in Ij. apply chunk_length. nia. }
      intros m' p' T. assert (Nx : nxy_of m' = Some (Z.of_nat nx, Z.of_nat ny)).
      { unfold nxy_of, type_text in *. rewrite T. clear -Pi. unfold post_init in Pi. cbn [dkind variables data shape metadata flat] in Pi. fold nv in Pi. unfold nxy_of, type_text in Pi.
        destruct (match match get m "type" with Some (VS s) => _ | _ => None end with Some s => _ | None => None end) as [[zx zy]|] eqn:Z0; [|discriminate].
        destruct (zshape_is _ _) eqn:Zs; [apply zshape_is_refl in Zs; cbn in Zs; injection Zs as <- <-; reflexivity|]. discriminate. }
      unfold post_init. cbn [dkind variables data shape metadata flat]. fold nv. rewrite Nx. rewrite zshape_not by (cbn; discriminate).
      replace (Z.of_nat (nv * ny) =? Z.of_nat ny * Z.of_nat nv)%Z with true by (symmetry; apply Z.eqb_eq; lia). rewrite Z.eqb_refl. cbn [andb]. now rewrite Nat2Z.id.
  Qed.
End Round.

(** * Theorems *)
Lemma in_kept_type k : In "type" (kept k). Proof. destruct k; cbn; tauto. Qed.
Lemma in_kept_variables k : In "variables" (kept k). Proof. destruct k; cbn; tauto. Qed.
Lemma startswith_array k k' t : startswith (array_name k) t = true -> startswith (array_name k') t = true -> k = k'.
Proof. rewrite !startswith_spec. intros (r & ->) (r' & E). destruct k, k'; try reflexivity; discriminate E. Qed.
Lemma text_read show parse d x : sound_texts d -> complete d -> reads_back show parse d x ->
  exists s d', write_text show d = Some s /\ read_text parse s = Some d' /\ data d' = x /\ same_texts d d' /\
    exists labs, labs_of d labs /\ forall k, get (metadata d') k <> None <-> In k (kept (dkind d)) \/ In k (map fst labs).
Proof.
  intros So K (c & labs & rows & a & C1 & C2 & C3 & C4 & C5 & C7 & C8 & C9).
  assert (Kw : forall k, In k (first_keys ++ second_keys (dkind d)) -> get (metadata d) k <> None) by (intros k I; apply K; now apply kept_written).
  assert (Cw : forall k, In k (first_keys ++ second_keys (dkind d)) -> clean (value_text (metadata d) k)) by (intros k I; apply kept_value; auto; now apply kept_written).
  pose proof (written_ok (dkind d)) as Ok. rewrite forallb_app in Ok. apply andb_prop in Ok as [Ok1 Ok2].
  destruct (keys_read (metadata d) first_keys Ok1) as (A1 & A2 & A3 & A4); [intros; apply Cw; apply in_or_app; now left|].
  destruct (keys_read (metadata d) (second_keys (dkind d)) Ok2) as (B1 & B2 & B3 & B4); [intros; apply Cw; apply in_or_app; now right|].
  pose proof So as ((Pi & W & Nm & Np) & (t & Gt & St) & (vv & Gv & Ev) & Cl & Pa). destruct (params_read (parameters d) Pa) as (P1 & P2 & P3 & P4).
  unfold write_text. rewrite (key_lines_all _ first_keys) by (intros; apply Kw; apply in_or_app; now left). rewrite (key_lines_all _ (second_keys (dkind d))) by (intros; apply Kw; apply in_or_app; now right). rewrite C1.
  set (ls := map (key_line (metadata d)) first_keys ++ map param_line (parameters d) ++ map (key_line (metadata d)) (second_keys (dkind d)) ++ c).
  set (pairs := map (fun k => (k, value_text (metadata d) k)) first_keys ++ map (fun k => (k, value_text (metadata d) k)) (second_keys (dkind d)) ++ labs).
  assert (F : from_text parse (unlines ls) = Some (to_dict pairs, map (fun kv : string * mval => (fst kv, as_text (snd kv))) (parameters d), a)).
  { unfold from_text. rewrite readlines_unlines by (unfold ls; repeat (apply Forall_app; split); assumption). fold addnl.
    change (map (fun l => l +++ String nl "") ls) with (map addnl ls). change (map (strip_by hashy) (filter is_header (map addnl ls))) with (headers ls). change (filter (fun x => negb (is_header x)) (map addnl ls)) with (others ls).
    unfold ls. rewrite !headers_app, !others_app, !filter_app, A2, A3, B2, B3, P2, P3, C3. cbn [app]. rewrite !app_nil_r, !map_app.
    rewrite (all_some_app _ _ _ _ A4 (all_some_app _ _ _ _ B4 C4)), P4, C7, C8. rewrite (to_dict_nodup (map (fun kv : string * mval => (fst kv, str_of (snd kv))) (parameters d))) by (rewrite map_map; exact Np). rewrite map_map. reflexivity. }
  assert (Gk : forall k, In k (kept (dkind d)) -> get (to_dict pairs) k = Some (VS (value_text (metadata d) k))).
  { intros k I. apply to_dict_some.
    - apply kept_written in I. unfold pairs. rewrite app_assoc, <- map_app. apply in_or_app. left. apply in_map_iff. exists k. split; [reflexivity|exact I].
    - intros w J. unfold pairs in J. rewrite app_assoc, <- map_app in J. apply in_app_iff in J as [J|J]; [apply in_map_iff in J as (k' & E & _); congruence|].
      apply (labs_of_block _ _ C5) in J as [_ J]. cbn in J. exfalso. exact (kept_not_block _ _ I J). }
  assert (Gt' : get (to_dict pairs) "type" = get (metadata d) "type") by (rewrite Gk by apply in_kept_type; unfold value_text; now rewrite Gt).
  exists (unlines ls), (mkDat (dkind d) (to_dict pairs) (map (fun kv : string * mval => (fst kv, as_text (snd kv))) (parameters d)) (variables d) x). split; [reflexivity|]. split.
  - unfold read_text. rewrite F. unfold read_mccode_dat. rewrite Gt', Gt, (Gk "variables") by apply in_kept_variables. unfold value_text. rewrite Gv. cbn [str_of]. rewrite <- Ev. specialize (C9 (to_dict pairs) (map (fun kv : string * mval => (fst kv, as_text (snd kv))) (parameters d)) Gt').
    assert (Ar : forall k, startswith (array_name k) t = true -> k = dkind d) by (intros k H; exact (startswith_array _ _ _ H St)).
    destruct (dkind d) eqn:Ek; cbn [array_name] in St; rewrite St.
    + exact C9.
    + destruct (startswith "array_0d" t) eqn:E0; [discriminate (Ar D0 E0)|exact C9].
    + destruct (startswith "array_0d" t) eqn:E0; [discriminate (Ar D0 E0)|]. destruct (startswith "array_1d" t) eqn:E1; [discriminate (Ar D1 E1)|exact C9].
  - assert (Gi : forall k, get (to_dict pairs) k <> None -> In k (kept (dkind d)) \/ In k (map fst labs)).
    { intros k G. destruct (in_dec string_dec k (map fst pairs)) as [I|I]; [|now rewrite to_dict_none in G].
      unfold pairs in I. rewrite !map_app, !map_map in I. cbn [fst] in I. rewrite !map_id in I. rewrite app_assoc in I. apply in_app_iff in I as [I|I]; [left; now apply kept_written|now right]. }
    split; [reflexivity|]. unfold same_texts. cbn [dkind metadata parameters variables data]. split.
    + repeat (split; [reflexivity|]). split.
      * intros k I. rewrite Gk by exact I. specialize (K k I). unfold value_text. now destruct (get (metadata d) k).
      * intros k N G. destruct (Gi k G) as [I|I]; [contradiction|]. apply in_map_iff in I as (kv & <- & I). exact (labs_of_block _ _ C5 _ I).
    + exists labs. split; [exact C5|]. intro k. split; [apply Gi|]. intros [I|I]; [rewrite Gk by exact I; discriminate|]. intro G.
      apply in_map_iff in I as ([k' v'] & E & I). cbn in E. subst k'. unfold to_dict in G. rewrite fold_dict_get in G. destruct (find _ (rev pairs)) as [?|] eqn:F0; [discriminate|].
      eapply find_none in F0; [|rewrite <- in_rev; unfold pairs; apply in_or_app; right; apply in_or_app; right; exact I]. cbn in F0. now rewrite String.eqb_refl in F0.
Qed.
(** A file that is written is read again as the same file: kind, variables, data, parameters and the keys of its kind, as text.  Nothing else comes back, except empty keys for the lines above the tables. *)
Theorem C63_written_is_read : forall show parse d, sound d -> complete d -> Forall (printable show parse) (flat (data d)) ->
  exists s d', write_text show d = Some s /\ read_text parse s = Some d' /\ same_file d d'.
Proof. intros show parse d So K P. destruct (text_read show parse d (data d)) as (s & d' & H1 & H2 & H3 & H4 & _); [apply So|exact K|now apply data_read|]. exists s, d'. exact (conj H1 (conj H2 (conj H3 H4))). Qed.
Print Assumptions C63_written_is_read.

Lemma all_some_ext {A B} (f g : A -> option B) l : (forall x, In x l -> f x = g x) -> all_some (map f l) = all_some (map g l).
Proof. intro H. now rewrite (map_ext_in _ _ _ H). Qed.
Lemma key_lines_same m m' l : (forall k, In k l -> get m' k = option_map as_text (get m k)) -> key_lines m' l = key_lines m l.
Proof. intro H. unfold key_lines. apply all_some_ext. intros k I. rewrite (H k I). now destruct (get m k). Qed.
Lemma blocks_same show m m' nv ny nx l vs : get m' "component" = option_map as_text (get m "component") -> get m' "filename" = option_map as_text (get m "filename") ->
  forall i, blocks show m' nv ny nx i l vs = blocks show m nv ny nx i l vs.
Proof.
  intros C F. induction vs as [|n vs IH]; intro i; [reflexivity|]. cbn [blocks]. rewrite IH. destruct (nth_error block_labels i) as [lab|]; [|reflexivity].
  replace (block_line m' lab n) with (block_line m lab n); [reflexivity|]. unfold block_line. rewrite C, F. destruct (get m "component"); [|reflexivity]. now destruct (get m "filename").
Qed.
(** Writing a file that was written and read gives the same text. *)
Theorem C63_written_again : forall show d d', same_file d d' -> write_text show d' = write_text show d.
Proof.
  intros show d d' (E3 & E1 & E2 & E4 & E5 & _). unfold write_text. rewrite E1.
  rewrite (key_lines_same (metadata d) (metadata d') first_keys) by (intros k I; apply E5, kept_written, in_or_app; now left).
  rewrite (key_lines_same (metadata d) (metadata d') (second_keys (dkind d))) by (intros k I; apply E5, kept_written, in_or_app; now right).
  replace (data_lines show d') with (data_lines show d).
  - rewrite E4, map_map. unfold param_line. cbn [fst snd as_text str_of]. reflexivity.
  - unfold data_lines. rewrite E1, E2, E3. destruct (dkind d) eqn:K; [reflexivity|reflexivity|]. destruct (shape (data d)) as [|nv [|ny [|nx [|? ?]]]]; try reflexivity.
    symmetry. apply blocks_same; apply E5; cbn; tauto.
Qed.
Print Assumptions C63_written_again.

(** Only files that have all keys of their kind are written. *)
Theorem C63_written_has_all_keys : forall show d s, write_text show d = Some s -> complete d.
Proof.
  intros show d s H k I G. unfold write_text in H. apply kept_written in I. apply in_app_iff in I.
  assert (N : forall l, In k l -> key_lines (metadata d) l = None).
  { clear -G. induction l as [|x l IH]; [intros []|]. unfold key_lines in *. cbn [map all_some]. intros [->|I]; [now rewrite G|]. rewrite (IH I). now destruct (get (metadata d) x). }
  destruct I as [I|I]; rewrite (N _ I) in H; [discriminate|]. destruct (key_lines _ first_keys); discriminate.
Qed.
Print Assumptions C63_written_has_all_keys.

(** * Combined files *)
Lemma no_hash_end s : has_char "#" s = false -> endswith "#" s = false.
Proof. intro H. destruct (endswith "#" s) eqn:E; [|reflexivity]. apply endswith_spec in E as (l & ->). rewrite has_char_app in H. cbn in H. now rewrite orb_true_r in H. Qed.
Lemma clean_int z : clean (str_of (VI z)).
Proof.
  cbn [str_of]. pose proof (str_Z_numeric z) as N. split; [|split].
  - unfold oneline. now apply (all_chars_absent numeric).
  - apply trimmed_eq, str_Z_trimmed.
  - apply no_hash_end. now apply (all_chars_absent numeric).
Qed.
Lemma clean_concat a b : clean a -> clean b -> b <> "" -> a <> "" -> clean (a +++ " " +++ b).
Proof.
  intros (O1 & T1 & E1) (O2 & T2 & E2) Nb Na. split; [|split].
  - unfold oneline in *. rewrite !has_char_app, O1, O2. reflexivity.
  - apply trimmed_fix in T1 as [L1 R1]. apply trimmed_fix in T2 as [L2 R2]. unfold strip. rewrite lstrip_app by (rewrite L1; exact Na). rewrite L1.
    rewrite <- string_app_assoc. rewrite rstrip_app by (rewrite R2; exact Nb). now rewrite R2.
  - destruct (endswith "#" (a +++ " " +++ b)) eqn:E; [|reflexivity]. apply endswith_spec in E as (l & E). destruct (snoc_cases b) as [->|(b' & c & ->)]; [congruence|].
    rewrite <- !string_app_assoc in E. assert (c = "#"%char).
    { assert (X : forall u v x y, u +++ String x "" = v +++ String y "" -> x = y).
      { clear. induction u as [|p u IH]; intros [|q v] x y; cbn; intro H; injection H as ?; auto; [destruct v; discriminate|destruct u; discriminate|]. subst. eauto. }
      exact (X _ _ _ _ E). }
    subst c. rewrite <- E2. symmetry. apply endswith_spec. now exists b'.
Qed.
Lemma contains_empty s : contains "" s = true.
Proof. apply contains_spec. now exists "", s. Qed.
(** keys whose values are joined have one *)
Definition full (k : string) (v : mval) : Prop := special_concatenate k = true -> str_of v <> "".
Definition filled (d : dat) : Prop := forall k v, In (k, v) (metadata d) \/ In (k, v) (parameters d) -> full k v.
Lemma merge_clean k w v m : merge k w v = Some m -> clean (str_of w) -> full k w -> clean (str_of v) -> clean (str_of m).
Proof.
  unfold merge, full. intros H W F V. destruct (special_add k).
  { destruct (int_of w), (int_of v); inversion H. apply clean_int. }
  destruct (special_concatenate k).
  - specialize (F eq_refl). destruct v as [v|], w as [w|]; try discriminate. cbn [not_in] in H. destruct (contains v w) eqn:C; cbn [negb] in H; [now inversion H; subst|].
    assert (E : m = VS (w +++ " " +++ v)) by (cbn [str_of] in H; congruence). rewrite E. cbn [str_of] in *. apply clean_concat; auto. intros ->. now rewrite contains_empty in C.
  - destruct (special_ignore k); [now inversion H; subst|]. destruct (mval_eqb w v); now inversion H; subst.
Qed.
Lemma merge_full k w v m : merge k w v = Some m -> full k w -> full k m.
Proof.
  unfold merge, full. intros H F C. rewrite C in H. specialize (F C). destruct (special_add k).
  { destruct (int_of w), (int_of v); inversion H. apply str_Z_nonempty. }
  destruct (not_in v w) as [[|]|]; inversion H; subst; cbn [str_of]; auto. destruct (str_of w); [congruence|discriminate].
Qed.
Lemma combine_values (Q : string -> Prop) b : (forall k v, Q k -> In (k, v) b -> clean (str_of v)) -> forall c r, combine_keys c b = Some r ->
  (forall k v, get c k = Some v -> full k v) -> (forall k v, Q k -> get c k = Some v -> clean (str_of v)) ->
  (forall k v, get r k = Some v -> full k v) /\ (forall k v, Q k -> get r k = Some v -> clean (str_of v)).
Proof.
  induction b as [|[k v] b IH]; intros B c r H F C; cbn [combine_keys] in H; [now inversion H; subst|].
  destruct (combine_key c (k, v)) as [c1|] eqn:E; [|discriminate]. apply (IH (fun k v q I => B k v q (or_intror I)) c1 r H).
  - apply combine_key_get in E as [[_ ->]|(w & m & G & M & G2)]; [exact F|]. intros x y. rewrite G2. destruct (String.eqb_spec k x) as [<-|]; [|apply F]. intro E. inversion E; subst. exact (merge_full _ _ _ _ M (F _ _ G)).
  - apply combine_key_get in E as [[_ ->]|(w & m & G & M & G2)]; [exact C|]. intros x y q. rewrite G2. destruct (String.eqb_spec k x) as [<-|]; [|now apply C]. intro E. inversion E; subst.
    apply (merge_clean _ _ _ _ M (C _ _ q G) (F _ _ G)). apply (B k v q). now left.
Qed.
Lemma combine_variables b : forall c r, combine_keys c b = Some r -> get r "variables" = get c "variables".
Proof.
  induction b as [|[k v] t IH]; intros c r H; cbn [combine_keys] in H; [now inversion H|].
  destruct (combine_key c (k, v)) as [c1|] eqn:E; [|discriminate]. rewrite (IH _ _ H). apply combine_key_get in E.
  destruct E as [[_ ->]|(w & m & G & M & G2)]; [reflexivity|]. rewrite G2. destruct (String.eqb_spec k "variables") as [->|]; [|reflexivity].
  rewrite G. unfold merge in M. cbn in M. destruct (mval_eqb w v); congruence.
Qed.
Lemma sound_add a b r : sound a -> filled a -> sound b -> dat_add a b = Some r -> sound r /\ filled r /\ (complete a -> complete r).
Proof.
  intros (Sa & Ma & (t & Gt & St) & (vv & Gv & Ev) & Ca & Pa) Fa (_ & Mb & _ & _ & Cb & Pb) H.
  destruct (dat_add_inv _ _ _ Ma (proj1 (proj2 Mb)) H) as (_ & K1 & V1 & K2 & V2 & Mr & E1 & E2 & E3). unfold combine_scan_dicts in *.
  destruct (combine_values (fun k => In k (kept (dkind a))) (metadata b)) with (c := metadata a) (r := metadata r) as [F1 C1]; auto.
  { intros k v I J. rewrite <- K1 in I. apply (Cb k v I). apply get_nodup; [apply Mb|exact J]. }
  { intros k v G. apply Fa. left. now apply get_in. }
  destruct (combine_values (fun _ => True) (parameters b)) with (c := parameters a) (r := parameters r) as [F2 C2]; auto.
  { intros k v _ J. rewrite Forall_forall in Pb. exact (proj2 (proj2 (proj2 (Pb _ J)))). }
  { intros k v G. apply Fa. right. now apply get_in. }
  { intros k v _ G. apply get_in in G. rewrite Forall_forall in Pa. exact (proj2 (proj2 (proj2 (Pa _ G)))). }
  destruct (combine_data_nth _ _ _ (proj1 (proj2 Ma)) (proj1 (proj2 Mb)) E3) as (_ & S2 & _ & _).
  assert (Km : keys (metadata r) = keys (metadata a)) by (eapply combine_keeps_keys; exact E1). assert (Kp : keys (parameters r) = keys (parameters a)) by (eapply combine_keeps_keys; exact E2).
  split; [|split].
  - split; [unfold shape_ok in *; now rewrite K2, V2, S2|]. split; [exact Mr|]. split; [exists t; rewrite (combine_type _ _ _ E1), K2; now split|]. split; [exists vv; rewrite (combine_variables _ _ _ E1), V2; now split|].
    split; [rewrite K2; exact C1|]. apply Forall_forall. intros [k v] I. assert (J : In k (keys (parameters a))) by (rewrite <- Kp; now apply (in_map fst) in I).
    apply in_map_iff in J as ([k' v'] & E & J). cbn in E. subst k'. rewrite Forall_forall in Pa. destruct (Pa _ J) as (P1 & P2 & P3 & _). split; [exact P1|]. split; [exact P2|]. split; [exact P3|].
    apply (C2 k v Logic.I). apply get_nodup; [apply Mr|exact I].
  - intros k v [I|I]; [apply F1|apply F2]; (apply get_nodup; [apply Mr|exact I]).
  - intros C k I G. rewrite K2 in I. apply (C k I). apply get_none. apply get_none in G. now rewrite <- Km.
Qed.
(** What comes out of a combination can be written and read again if the files that go in can. *)
Theorem C63_combination_is_sound : forall d ds r, sound d -> filled d -> Forall sound ds -> combine_mccode_dats (d :: ds) = Some r -> sound r /\ (complete d -> complete r).
Proof.
  intros d ds r S F H. cbn [combine_mccode_dats]. revert d S F. induction H as [|x ds Hx H IH]; intros d S F E; cbn [add_from] in E; [inversion E; subst; auto|].
  destruct (dat_add d x) as [s|] eqn:A; [|discriminate]. destruct (sound_add _ _ _ S F Hx A) as (S' & F' & C). destruct (IH s S' F' E) as [R1 R2]. auto.
Qed.
Print Assumptions C63_combination_is_sound.
(** From files to file: the file written for several files is read again with the sums in its data. *)
Theorem C63_combined_file : forall show parse files d ds, all_some (map (read_text parse) files) = Some (d :: ds) -> Forall sound (d :: ds) -> filled d -> complete d ->
  forall r, combine_mccode_dats (d :: ds) = Some r -> Forall (printable show parse) (flat (data r)) ->
  exists s d', write_combined show parse files = Some s /\ read_text parse s = Some d' /\ same_file r d' /\ shape (data d') = shape (data d) /\ variables d' = variables d /\
    forall j, nth j (flat (data d')) 0%Qc = if j <? axis (data d) then nth j (flat (data d)) 0%Qc else qsum (map (fun x => nth j (flat (data x)) 0%Qc) (d :: ds)).
Proof.
  intros show parse files d ds R S F C r E P. inversion S as [|? ? Sd Sds]; subst. destruct (C63_combination_is_sound d ds r Sd F Sds E) as [Sr Cr].
  destruct (C63_written_is_read show parse r Sr (Cr C) P) as (s & d' & W & R' & Sm). exists s, d'. unfold write_combined. rewrite R, E. split; [exact W|]. split; [exact R'|]. split; [exact Sm|].
  destruct Sm as (D' & K' & V' & _). rewrite D', V'. destruct (C31_data_added d ds r) as (Sh & Va & _ & N); [apply Sd|eapply Forall_impl; [|exact Sds]; intros x X; apply X|exact E|]. auto.
Qed.
Print Assumptions C63_combined_file.

(** * Files that were read *)
(** blanks are spaces and newlines *)
Fixpoint plain (s : string) : bool := match s with EmptyString => true | String a t => (negb (is_space a) || Ascii.eqb a " " || Ascii.eqb a nl) && plain t end.
Lemma plain_app a b : plain (a +++ b) = plain a && plain b.
Proof. induction a as [|x a IH]; [reflexivity|]. cbn. now rewrite IH, andb_assoc. Qed.
Lemma plain_part a b : part_of a b -> plain b = true -> plain a = true.
Proof. intros (l & r & ->). rewrite !plain_app. intro H. apply andb_prop in H as [_ H]. now apply andb_prop in H. Qed.
Lemma oneline_part a b : part_of a b -> oneline b -> oneline a.
Proof. apply part_char. Qed.
Lemma readlines_spec s : plain s = true -> Forall (fun l => exists b, oneline b /\ plain b = true /\ (l = b \/ l = b +++ String nl "")) (readlines s).
Proof.
  induction s as [|a s IH]; [constructor|]. cbn [plain readlines]. intro H. apply andb_prop in H as [Ha H]. specialize (IH H). destruct (Ascii.eqb_spec a nl) as [->|N].
  - constructor; [|exact IH]. exists "". repeat split. now right.
  - assert (O : Ascii.eqb a nl = false) by now apply Ascii.eqb_neq. destruct (readlines s) as [|l ls].
    + constructor; [|constructor]. exists (String a ""). unfold oneline. cbn. rewrite O. rewrite !orb_false_r in *. rewrite Ha. auto.
    + inversion IH as [|? ? (b & Ob & Pb & E) Hs]; subst. constructor; [|exact Hs]. exists (String a b). unfold oneline in *. cbn. rewrite O, Ob, Pb. rewrite !orb_false_r in *. rewrite Ha. destruct E as [->| ->]; auto.
Qed.
Lemma lby_part f s : part_of (lstrip_by f s) s.
Proof. induction s as [|a s IH]; [apply part_refl|]. cbn. destruct (f a); [|apply part_refl]. eapply part_trans; [exact IH|]. apply (part_r (String a "") s). Qed.
Lemma rby_part f s : exists w, s = rstrip_by f s +++ w.
Proof.
  induction s as [|a s (w & E)]; [now exists ""|]. cbn. destruct (rstrip_by f s) as [|b r] eqn:R.
  - destruct (f a); [now exists (String a s)|]. cbn in E. subst w. now exists s.
  - exists w. cbn. now rewrite E at 1.
Qed.
Lemma sby_part f s : part_of (strip_by f s) s.
Proof. eapply part_trans; [|apply lby_part]. destruct (rby_part f (lstrip_by f s)) as (w & E). unfold strip_by. rewrite E at 2. apply part_l. Qed.
Lemma rby_idem f s : rstrip_by f (rstrip_by f s) = rstrip_by f s.
Proof.
  induction s as [|a s IH]; [reflexivity|]. cbn. destruct (rstrip_by f s) as [|b t] eqn:E; [destruct (f a) eqn:A; cbn; rewrite ?A; reflexivity|].
  cbn [rstrip_by]. cbn [rstrip_by] in IH. rewrite IH. reflexivity.
Qed.
Lemma sby_nl b : strip_by hashy (b +++ String nl "") = strip_by hashy b.
Proof.
  unfold strip_by. induction b as [|a b IH]; [reflexivity|]. cbn [append lstrip_by]. destruct (hashy a); [exact IH|]. change (String a (b +++ String nl "")) with (String a b +++ String nl ""). now apply rby_snoc.
Qed.
Lemma rby_suffix f a v : rstrip_by f (a +++ v) = a +++ v -> rstrip_by f v = v.
Proof. induction a as [|x a IH]; [auto|]. cbn [append rstrip_by]. intro H. apply IH. destruct (rstrip_by f (a +++ v)) eqn:E; [destruct (f x); congruence|congruence]. Qed.
Lemma snoc_inj u : forall v x y, u +++ String x "" = v +++ String y "" -> x = y.
Proof. induction u as [|p u IH]; intros [|q v] x y; cbn; intro H; injection H as ?; auto; [destruct v; discriminate|destruct u; discriminate|]. subst. eauto. Qed.
Lemma fixed_clean v : oneline v -> plain v = true -> rstrip_by hashy v = v -> clean (strip v).
Proof.
  intros O P F. assert (H : forall u, oneline u -> plain u = true -> rstrip_by hashy u = u -> rstrip u = u /\ endswith "#" u = false).
  { clear. intros u O P F. destruct (snoc_cases u) as [->|(l & c & ->)]; [split; reflexivity|].
    assert (Hc : hashy c = false). { destruct (hashy c) eqn:H; [|reflexivity]. rewrite rby_snoc in F by exact H. pose proof (rby_length hashy l) as L. rewrite F, string_app_length in L. cbn in L. lia. }
    unfold hashy in Hc. apply orb_false_elim in Hc as [Hc H3]. apply orb_false_elim in Hc as [H1 H2]. rewrite plain_app in P. apply andb_prop in P as [_ P]. cbn in P. rewrite H1, H3, andb_true_r, !orb_false_r in P. apply negb_true_iff in P. split.
    - rewrite rstrip_is_by. now apply rby_last.
    - destruct (endswith "#" (l +++ String c "")) eqn:E; [|reflexivity]. apply endswith_spec in E as (l' & E). apply snoc_inj in E. subst c. discriminate. }
  assert (S : exists w, v = w +++ lstrip v). { destruct (lstrip_split v) as (w & _ & E). now exists w. }
  destruct S as (w & E). assert (Pl : part_of (lstrip v) v) by (rewrite E at 2; apply part_r). destruct (H (lstrip v)) as [R N]; [now apply (oneline_part _ v)|now apply (plain_part _ v)|apply (rby_suffix _ w); now rewrite <- E|].
  split; [|split].
  - eapply oneline_part; [apply part_strip|exact O].
  - apply strip_idem.
  - unfold strip. now rewrite R.
Qed.
Lemma header_fixed s x : plain s = true -> In x (map (strip_by hashy) (filter is_header (readlines s))) -> oneline x /\ plain x = true /\ rstrip_by hashy x = x.
Proof.
  intros P I. apply in_map_iff in I as (l & <- & I). apply filter_In in I as [I _]. pose proof (readlines_spec s P) as H. rewrite Forall_forall in H. destruct (H l I) as (b & O & Pb & E).
  assert (X : strip_by hashy l = strip_by hashy b) by (destruct E as [->| ->]; [reflexivity|apply sby_nl]). rewrite X. split; [|split].
  - eapply oneline_part; [apply sby_part|exact O].
  - eapply plain_part; [apply sby_part|exact Pb].
  - unfold strip_by. apply rby_idem.
Qed.
Lemma to_dict_in l k v : get (to_dict l) k = Some v -> exists w, v = VS w /\ In (k, w) l.
Proof.
  unfold to_dict. rewrite fold_dict_get. destruct (find _ (rev l)) as [[a w]|] eqn:F; [|discriminate]. intro H. inversion H; subst. exists w. split; [reflexivity|].
  apply find_some in F as [F E]. cbn in E. apply String.eqb_eq in E as ->. now rewrite <- in_rev in F.
Qed.
Lemma all_some_in {A B} (f : A -> option B) l r y : all_some (map f l) = Some r -> In y r -> exists x, In x l /\ f x = Some y.
Proof. intros H I. apply all_some_inv in H. induction H as [|x z l r E H IH]; [destruct I|]. destruct I as [->|I]; [exists x; split; [now left|exact E]|]. destruct (IH I) as (x' & I' & E'). exists x'. split; [now right|exact E']. Qed.
Lemma from_text_clean parse s m p a : plain s = true -> from_text parse s = Some (m, p, a) ->
  (forall k v, get m k = Some v -> clean (str_of v)) /\ NoDup (keys m) /\ NoDup (keys p) /\ Forall param_ok p /\ well_shaped a.
Proof.
  intros P. unfold from_text. destruct (all_some (map meta_pair _)) as [ms|] eqn:Em; [|discriminate]. destruct (all_some (map parm_pair _)) as [ps|] eqn:Ep; [|discriminate].
  destruct (all_some (map (read_row parse) _)) as [rs|]; [|discriminate]. destruct (array rs) as [a'|] eqn:Ar; [|discriminate]. intro H. inversion H; subst. clear H.
  split; [|split; [apply to_dict_keys|split; [apply to_dict_keys|split]]].
  - intros k v G. apply to_dict_in in G as (w & -> & I). cbn [str_of]. destruct (all_some_in _ _ _ _ Em I) as (x & J & X). apply filter_In in J as [J _]. destruct (header_fixed s x P J) as (O & Px & F).
    unfold meta_pair in X. destruct (split_once ":" x) as [[k0 v0]|] eqn:E; [|discriminate]. inversion X; subst. apply split_once_some in E as [E _].
    assert (E2 : x = (k0 +++ ":") +++ v0) by (rewrite E, string_app_assoc; reflexivity). assert (Pt : part_of v0 x) by (rewrite E2; apply part_r).
    apply fixed_clean; [now apply (oneline_part _ x)|now apply (plain_part _ x)|]. apply (rby_suffix _ (k0 +++ ":")). now rewrite <- E2.
  - apply Forall_forall. intros [k v] I. assert (G : get (to_dict ps) k = Some v) by (apply get_nodup; [apply to_dict_keys|exact I]). apply to_dict_in in G as (w & -> & I').
    destruct (all_some_in _ _ _ _ Ep I') as (x & J & X). apply filter_In in J as [J _]. destruct (header_fixed s x P J) as (O & Px & F).
    unfold parm_pair in X. destruct (split_once ":" x) as [[k1 r]|] eqn:E1; [|discriminate]. destruct (split_once "=" r) as [[k0 v0]|] eqn:E; [|discriminate]. inversion X; subst. apply split_once_some in E as [E N]. apply split_once_some in E1 as [E1 _].
    assert (E2 : x = (k1 +++ ":" +++ k0 +++ "=") +++ v0) by (rewrite E1, E, !string_app_assoc; reflexivity).
    assert (Pk : part_of k0 x) by (rewrite E1, E; exists (k1 +++ ":"), (String "=" v0); now rewrite string_app_assoc). assert (Pt : part_of v0 x) by (rewrite E2; apply part_r).
    unfold param_ok. cbn [fst snd str_of]. split; [eapply oneline_part; [apply part_strip|now apply (oneline_part _ x)]|]. split; [apply strip_idem|]. split; [eapply part_char; [apply part_strip|exact N]|].
    apply fixed_clean; [now apply (oneline_part _ x)|now apply (plain_part _ x)|]. apply (rby_suffix _ (k1 +++ ":" +++ k0 +++ "=")). now rewrite <- E2.
  - unfold array in Ar. destruct rs as [|r rs]; [inversion Ar; reflexivity|]. destruct (forallb _ _) eqn:Fa; [|discriminate]. inversion Ar; subst. unfold well_shaped, size. cbn [shape flat fold_right]. rewrite Nat.mul_1_r. clear -Fa.
    rewrite forallb_forall in Fa. assert (G : forall l : list (list Qc), incl l (r :: rs) -> List.length (List.concat l) = List.length l * List.length r).
    { induction l as [|x l IH]; intro I; [reflexivity|]. cbn [List.concat List.length mult]. rewrite app_length, IH by (intros y J; apply I; now right). specialize (Fa x (I x (or_introl eq_refl))). apply Nat.eqb_eq in Fa. lia. }
    apply (G (r :: rs)). apply incl_refl.
Qed.
Lemma post_init_made d d' : post_init d = Some d' -> well_shaped (data d) -> variables d <> [] -> post_init d' = Some d' /\ well_shaped (data d') /\ dkind d' = dkind d /\ metadata d' = metadata d /\ parameters d' = parameters d /\ variables d' = variables d.
Proof.
  intros H W V. pose proof H as H0. unfold post_init in H. destruct (dkind d) eqn:K.
  - destruct (nats_eqb _ _) eqn:N; [inversion H; subst d'; rewrite K; repeat split; auto|]. destruct (size (data d) =? _) eqn:S; [|discriminate]. inversion H; subst. cbn [dkind metadata parameters variables data]. apply Nat.eqb_eq in S.
    repeat split; [unfold post_init; cbn [dkind variables data shape]; now rewrite (proj2 (nats_eqb_eq _ _) eq_refl)|]. unfold well_shaped, size in *. cbn [shape flat fold_right]. lia.
  - destruct (nx_of (metadata d)) as [nx|] eqn:Nx; [|discriminate]. destruct (zshape_is _ _) eqn:Zs; [inversion H; subst d'; rewrite K; repeat split; auto|].
    destruct (shape (data d)) as [|r [|c [|? ?]]] eqn:Sh; try discriminate. destruct (_ && _) eqn:E; [|discriminate]. apply andb_prop in E as [E1 E2]. apply Z.eqb_eq in E1. apply Nat.eqb_eq in E2. inversion H; subst. cbn [dkind metadata parameters variables data].
    repeat split.
    + unfold post_init. cbn [dkind variables data shape metadata]. rewrite Nx. replace (zshape_is _ _) with true; [reflexivity|]. symmetry. apply zshape_is_refl. reflexivity.
    + unfold well_shaped, size. cbn [shape flat fold_right]. unfold transpose. rewrite columns_length. lia.
  - destruct (nxy_of (metadata d)) as [[nx ny]|] eqn:Nx; [|discriminate]. destruct (zshape_is _ _) eqn:Zs; [inversion H; subst d'; rewrite K; repeat split; auto|].
    destruct (shape (data d)) as [|r [|c [|? ?]]] eqn:Sh; try discriminate. destruct (_ && _) eqn:E; [|discriminate]. apply andb_prop in E as [E1 E2]. apply Z.eqb_eq in E1. apply Z.eqb_eq in E2. inversion H; subst. cbn [dkind metadata parameters variables data].
    unfold well_shaped, size in W. rewrite Sh in W. cbn in W.
    assert (L0 : List.length (variables d) <> 0) by (destruct (variables d); [congruence|discriminate]). assert (Ny : (0 <= ny)%Z) by nia.
    repeat split.
    + unfold post_init. cbn [dkind variables data shape metadata]. rewrite Nx. replace (zshape_is _ _) with true; [reflexivity|]. symmetry. apply zshape_is_refl. cbn. now rewrite Z2Nat.id.
    + unfold well_shaped, size. cbn [shape flat fold_right]. rewrite W. assert (r = Z.to_nat ny * List.length (variables d)) by nia. nia.
Qed.
(** What is read from a text without tabs and the like can be written and read again, if its table is neither square nor empty, nor are there more than three tables. *)
Theorem C63_read_is_sound : forall parse s d, plain s = true -> read_text parse s = Some d -> get (metadata d) "variables" <> None -> shape_ok d -> sound d.
Proof.
  intros parse s d P H Gv Sh. unfold read_text in H. destruct (from_text parse s) as [[[m p] a]|] eqn:F; [|discriminate]. destruct (from_text_clean parse s m p a P F) as (Cm & Nm & Np & Pp & W).
  unfold read_mccode_dat in H. destruct (get m "type") as [[t|]|] eqn:Gt; try discriminate.
  assert (X : exists k, startswith (array_name k) t = true /\ post_init (mkDat k m p (split_char " " (match get m "variables" with Some w => str_of w | None => "" end)) a) = Some d).
  { destruct (startswith "array_0d" t) eqn:E0; [now exists D0|]. destruct (startswith "array_1d" t) eqn:E1; [now exists D1|]. destruct (startswith "array_2d" t) eqn:E2; [now exists D2|discriminate]. }
  destruct X as (k & Sk & X). apply post_init_made in X as (X1 & X2 & X3 & X4 & X5 & X6); [|exact W|cbn; apply split_char_nonempty]. cbn [dkind metadata parameters variables] in *.
  rewrite X4 in Gv. destruct (get m "variables") as [v|] eqn:Ev; [|congruence].
  split; [exact Sh|]. split; [split; [exact X1|split; [exact X2|split; [now rewrite X4|now rewrite X5]]]|]. rewrite X3, X4, X5.
  split; [exists t; now split|]. split; [exists v; now split|]. split; [|exact Pp]. intros x w _ G. exact (Cm x w G).
Qed.
Print Assumptions C63_read_is_sound.

(** * Findings *)
(** A one dimensional file with as many bins as variables (four, for the usual x, I, I_err, N) is written line by line and then taken for data that needs no transposing: what is read has lines and columns exchanged. *)
Theorem C63_square_file_refuted : forall show parse d n, sound_texts d -> complete d -> Forall (printable show parse) (flat (data d)) -> dkind d = D1 -> shape (data d) = [n; n] -> List.length (variables d) = n ->
  exists s d', write_text show d = Some s /\ read_text parse s = Some d' /\ same_texts d d' /\ shape (data d') = [n; n] /\
    forall i j, i < n -> j < n -> nth (i * n + j) (flat (data d')) 0%Qc = nth (j * n + i) (flat (data d)) 0%Qc.
Proof.
  intros show parse d n So K P Kd Sh Ln.
  assert (R : reads_back show parse d (mkArr [n; n] (transpose n n (flat (data d))))).
  { pose proof So as ((Pi & W & _) & _ & (vv & Gv & Ev) & _). unfold reads_back, data_lines. rewrite Kd, Sh. unfold well_shaped, size in W. rewrite Sh in W. cbn in W. rewrite Nat.mul_1_r in W.
    assert (N0 : n <> 0). { rewrite <- Ln, Ev. pose proof (split_char_nonempty " " (str_of vv)). destruct (split_char " " (str_of vv)); [congruence|discriminate]. }
    set (l := flat (data d)) in *. set (rows := map (fun j => column n j l n) (seq 0 n)).
    assert (Fr : Forall (Forall (printable show parse)) rows).
    { apply Forall_forall. intros r I. apply in_map_iff in I as (j & <- & Ij). apply in_seq in Ij. apply Forall_forall. intros x Ix. apply in_map_iff in Ix as (i & <- & Ii). apply in_seq in Ii.
      rewrite Forall_forall in P. apply P. apply nth_In. rewrite W. nia. }
    destruct (rows_read show parse rows Fr) as (A1 & A2 & A3). exists (map (row_line show) rows), [], rows, (mkArr [n; n] (transpose n n l)).
    split; [unfold rows; now rewrite map_map|]. split; [exact A1|]. rewrite A2. do 2 (split; [now constructor|]). split; [unfold labs_of; rewrite Kd; reflexivity|]. split; [exact A3|]. split.
    { rewrite (array_table rows n).
      - unfold rows. rewrite map_length, seq_length. unfold transpose. now rewrite flat_map_concat_map.
      - unfold rows. destruct n; [congruence|discriminate].
      - apply Forall_forall. intros r I. apply in_map_iff in I as (j & <- & _). unfold column. now rewrite map_length, seq_length. }
    intros m' p' T. unfold post_init in *. rewrite Kd in Pi. cbn [dkind variables data shape metadata flat]. rewrite Ln in *.
    assert (E : nx_of m' = nx_of (metadata d)) by (unfold nx_of, type_text; now rewrite T). rewrite E. destruct (nx_of (metadata d)) as [z|]; [|discriminate].
    assert (Zn : z = Z.of_nat n).
    { destruct (zshape_is (data d) _) eqn:Zs; [apply zshape_is_refl in Zs; rewrite Sh in Zs; cbn in Zs; injection Zs as <-; reflexivity|]. rewrite Sh in Pi. destruct (_ && _) eqn:Eb; [|discriminate]. apply andb_prop in Eb as [Eb _]. apply Z.eqb_eq in Eb. congruence. }
    subst z. replace (zshape_is _ _) with true; [reflexivity|]. symmetry. apply zshape_is_refl. reflexivity. }
  destruct (text_read show parse d _ So K R) as (s & d' & H1 & H2 & H3 & H4 & _). exists s, d'. rewrite H3. split; [exact H1|]. split; [exact H2|]. split; [exact H4|]. split; [reflexivity|].
  intros i j Hi Hj. cbn [flat]. now apply transpose_nth.
Qed.
Print Assumptions C63_square_file_refuted.
(** Two dimensional files with more than three variables are never written. *)
Theorem C63_fourth_table_refuted : forall show d, dkind d = D2 -> 3 < List.length (variables d) -> write_text show d = None.
Proof.
  intros show d K L. unfold write_text. destruct (key_lines _ first_keys); [|reflexivity]. destruct (key_lines _ _); [|reflexivity].
  replace (data_lines show d) with (@None (list string)); [reflexivity|]. unfold data_lines. rewrite K. destruct (shape (data d)) as [|nv [|ny [|nx [|? ?]]]]; try reflexivity.
  destruct (variables d) as [|a [|b [|c [|e v]]]]; cbn [List.length] in L; try lia. cbn [blocks nth_error block_labels].
  destruct (block_line (metadata d) "Data" a), (0 <? nv); try reflexivity. destruct (block_line (metadata d) "Errors" b), (1 <? nv); try reflexivity. destruct (block_line (metadata d) "Events" c), (2 <? nv); reflexivity.
Qed.
Print Assumptions C63_fourth_table_refuted.
(** A one dimensional file without bins is written as a header alone, which is not read again. *)
Theorem C63_no_bins_refuted : forall show parse d s, sound_texts d -> dkind d = D1 -> shape (data d) = [List.length (variables d); 0] -> write_text show d = Some s -> read_text parse s = None.
Proof.
  intros show parse d s So Kd Sh W. pose proof (C63_written_has_all_keys show d s W) as K.
  assert (Kw : forall k, In k (first_keys ++ second_keys (dkind d)) -> get (metadata d) k <> None) by (intros k I; apply K; now apply kept_written).
  assert (Cw : forall k, In k (first_keys ++ second_keys (dkind d)) -> clean (value_text (metadata d) k)) by (intros k I; apply kept_value; auto; now apply kept_written).
  pose proof (written_ok (dkind d)) as Ok. rewrite forallb_app in Ok. apply andb_prop in Ok as [Ok1 Ok2].
  destruct (keys_read (metadata d) first_keys Ok1) as (A1 & A2 & A3 & A4); [intros; apply Cw; apply in_or_app; now left|].
  destruct (keys_read (metadata d) (second_keys (dkind d)) Ok2) as (B1 & B2 & B3 & B4); [intros; apply Cw; apply in_or_app; now right|].
  pose proof So as (_ & (t & Gt & St) & _ & _ & Pa). destruct (params_read (parameters d) Pa) as (P1 & P2 & P3 & P4).
  unfold write_text in W. rewrite (key_lines_all _ first_keys) in W by (intros; apply Kw; apply in_or_app; now left). rewrite (key_lines_all _ (second_keys (dkind d))) in W by (intros; apply Kw; apply in_or_app; now right).
  replace (data_lines show d) with (Some (@nil string)) in W by (unfold data_lines; rewrite Kd, Sh; reflexivity). rewrite app_nil_r in W.
  set (ls := map (key_line (metadata d)) first_keys ++ map param_line (parameters d) ++ map (key_line (metadata d)) (second_keys (dkind d))) in *. assert (Es : s = unlines ls) by congruence. subst s. clear W.
  set (pairs := map (fun k => (k, value_text (metadata d) k)) first_keys ++ map (fun k => (k, value_text (metadata d) k)) (second_keys (dkind d))).
  unfold read_text, from_text. rewrite readlines_unlines by (unfold ls; repeat (apply Forall_app; split); assumption).
  change (map (fun l => l +++ String nl "") ls) with (map addnl ls). change (map (strip_by hashy) (filter is_header (map addnl ls))) with (headers ls). change (filter (fun x => negb (is_header x)) (map addnl ls)) with (others ls).
  unfold ls. rewrite !headers_app, !others_app, !filter_app, A2, A3, B2, B3, P2, P3. cbn [app]. rewrite !app_nil_r, !map_app. rewrite (all_some_app _ _ _ _ A4 B4), P4. cbn [map all_some array]. fold pairs.
  assert (Gt' : get (to_dict pairs) "type" = Some (VS t)).
  { replace t with (value_text (metadata d) "type") by (unfold value_text; now rewrite Gt). unfold pairs. rewrite <- map_app. apply to_dict_some.
    - apply in_map_iff. exists "type". split; [reflexivity|]. apply kept_written, in_kept_type.
    - intros w J. apply in_map_iff in J as (k' & E & _). congruence. }
  unfold read_mccode_dat. rewrite Gt'. rewrite Kd in St. cbn [array_name] in St. destruct (startswith "array_0d" t) eqn:E0; [discriminate (startswith_array D0 D1 t E0 St)|]. rewrite St.
  unfold post_init. cbn [dkind data shape metadata]. now destruct (nx_of (to_dict pairs)).
Qed.
Print Assumptions C63_no_bins_refuted.

Lemma combine_keys_in b : forall c r, combine_keys c b = Some r -> forall k, In k (keys b) -> plain_ignored k = false -> In k (keys c).
Proof.
  induction b as [|[k0 v] b IH]; intros c r H k I N; [contradiction|]. cbn [combine_keys] in H. destruct (combine_key c (k0, v)) as [c1|] eqn:E; [|discriminate].
  assert (Kc : keys c1 = keys c) by (apply (combine_keeps_keys [(k0, v)]); cbn [combine_keys]; now rewrite E). cbn in I. destruct I as [->|I]; [|rewrite <- Kc; exact (IH _ _ H _ I N)].
  apply combine_key_get in E as [[E _]|(w & m & G & _)]; [congruence|]. apply get_in in G. now apply (in_map fst) in G.
Qed.
Lemma rstrip_tail a b : rstrip (a +++ String "]" b) = a +++ rstrip (String "]" b).
Proof. apply rstrip_app. cbn. destruct (rstrip b); discriminate. Qed.
Lemma label_strip l c f n : In l block_labels -> strip (label_text l c f n) = l +++ " [" +++ c +++ "/" +++ f +++ rstrip ("] " +++ n).
Proof.
  intro L. unfold label_text, strip. replace (lstrip (l +++ " [" +++ c +++ "/" +++ f +++ "] " +++ n)) with (l +++ " [" +++ c +++ "/" +++ f +++ "] " +++ n) by now destruct L as [<-|[<-|[<-|[]]]].
  transitivity (rstrip ((l +++ " [" +++ c +++ "/" +++ f) +++ String "]" (String " " n))); [now rewrite !string_app_assoc|]. rewrite rstrip_tail. now rewrite !string_app_assoc.
Qed.
(** Two dimensional files whose names differ cannot be combined, though names are among the values to be joined: the line above a table is read as a key with the name of the file in it, and the second file's is not among the keys of the first. *)
Theorem C63_two_dimensional_names_refuted : forall show parse d1 d2 e1 e2 s1 s2 c f1 f2 n vs, sound d1 -> sound d2 -> dkind d1 = D2 -> dkind d2 = D2 ->
  variables d1 = n :: vs -> variables d2 = n :: vs ->
  get (metadata d1) "component" = Some (VS c) -> get (metadata d2) "component" = Some (VS c) -> get (metadata d1) "filename" = Some (VS f1) -> get (metadata d2) "filename" = Some (VS f2) -> f1 <> f2 ->
  has_char ":" c = false -> has_char ":" f1 = false -> has_char ":" f2 = false -> has_char ":" n = false -> special_ignore (strip (label_text "Data" c f2 n)) = false ->
  Forall (printable show parse) (flat (data d1)) -> Forall (printable show parse) (flat (data d2)) ->
  write_text show d1 = Some s1 -> write_text show d2 = Some s2 -> read_text parse s1 = Some e1 -> read_text parse s2 = Some e2 -> dat_add e1 e2 = None.
Proof.
  intros show parse d1 d2 e1 e2 s1 s2 c f1 f2 n vs S1 S2 K1 K2 V1 V2 C1 C2 F1 F2 Nf Hc H1 H2 Hn Ig P1 P2 W1 W2 R1 R2.
  assert (B : forall d e s, sound d -> Forall (printable show parse) (flat (data d)) -> write_text show d = Some s -> read_text parse s = Some e ->
    exists labs, labs_of d labs /\ forall k, get (metadata e) k <> None <-> In k (kept (dkind d)) \/ In k (map fst labs)).
  { intros d e s S P W R. destruct (text_read show parse d (data d)) as (s' & d' & A1 & A2 & _ & _ & A3); [apply S|exact (C63_written_has_all_keys _ _ _ W)|apply data_read; [exact S|exact (C63_written_has_all_keys _ _ _ W)|exact P]|].
    assert (s' = s) by congruence. subst s'. assert (d' = e) by congruence. subst d'. exact A3. }
  destruct (B d1 e1 s1 S1 P1 W1 R1) as (labs1 & L1 & G1). destruct (B d2 e2 s2 S2 P2 W2 R2) as (labs2 & L2 & G2). unfold labs_of in L1, L2. rewrite K1, V1 in L1. rewrite K2, V2 in L2. rewrite K1 in G1.
  set (key := strip (label_text "Data" c f2 n)) in *.
  assert (I2 : get (metadata e2) key <> None).
  { apply G2. right. cbn [List.combine block_labels] in L2. inversion L2 as [|? kv ? ? Q _]; subst. destruct Q as [_ Q]. cbn [fst snd] in Q. rewrite (Q _ _ C2 F2 Hc H2 Hn). now left. }
  assert (N1 : get (metadata e1) key = None).
  { destruct (get (metadata e1) key) eqn:G; [|reflexivity]. exfalso. destruct (proj1 (G1 key)) as [I|I]; [congruence| |].
    - apply (kept_not_block D2 key I). exists "Data". split; [now left|]. unfold key. rewrite label_strip by now left. reflexivity.
    - cbn [List.combine block_labels] in L1. inversion L1 as [|? kv ? labs' Q L1']; subst. destruct I as [I|I].
      + destruct Q as [_ Q]. cbn [fst snd] in Q. rewrite (Q _ _ C1 F1 Hc H1 Hn) in I. cbn [fst str_of] in I. unfold key in I. rewrite !label_strip in I by now left.
        apply string_app_inj_l, string_app_inj_l, string_app_inj_l, string_app_inj_l, string_app_inj_r in I. congruence.
      + assert (D : forall kv, In kv labs' -> startswith "Data" (fst kv) = false).
        { clear -L1'. intros kv I. destruct vs as [|v1 vs]; [inversion L1'; subst; contradiction|]. inversion L1' as [|? ? ? ? Q1 L2]; subst.
          assert (Ne : forall x, startswith "Errors [" x = true -> startswith "Data" x = false) by (intros x H; apply startswith_spec in H as (r & ->); reflexivity).
          assert (Nv : forall x, startswith "Events [" x = true -> startswith "Data" x = false) by (intros x H; apply startswith_spec in H as (r & ->); reflexivity).
          destruct I as [<-|I]; [apply Ne, Q1|]. destruct vs as [|v2 vs]; [inversion L2; subst; contradiction|]. inversion L2 as [|? ? ? ? Q2 L3]; subst. destruct I as [<-|I]; [apply Nv, Q2|]. inversion L3; subst. contradiction. }
        apply in_map_iff in I as (kv' & E & I). specialize (D kv' I). rewrite E in D. unfold key in D. rewrite label_strip in D by now left. discriminate. }
  unfold dat_add. destruct (safe_to_combine e1 e2) as [[|]|]; try reflexivity. unfold combine_scan_dicts. destruct (combine_keys (metadata e1) (metadata e2)) as [r|] eqn:E; [|reflexivity]. exfalso.
  apply get_none in N1. apply N1. apply (combine_keys_in _ _ _ E).
  - destruct (get (metadata e2) key) as [v|] eqn:G; [|congruence]. apply get_in in G. now apply (in_map fst) in G.
  - unfold plain_ignored. rewrite Ig. apply andb_false_r.
Qed.
Print Assumptions C63_two_dimensional_names_refuted.

(** * Examples *)
Definition show0 (x : Qc) : string := str_Z (Qnum (this x)).
Definition parse0 (s : string) : option Qc := match py_int s with Some z => Some (q z) | None => None end.
Lemma printable0 l : Forall (printable show0 parse0) (map q l).
Proof.
  apply Forall_forall. intros x I. apply in_map_iff in I as (z & <- & _).
  assert (E : show0 (q z) = str_Z z).
  { unfold show0, q. cbn [this Q2Qc]. assert (R : Qred (inject_Z z) = inject_Z z) by (unfold inject_Z; apply Qred_identity; cbn; apply Z.gcd_1_r). now rewrite R. }
  pose proof (str_Z_numeric z) as N. unfold printable. rewrite E. split; [|unfold parse0; now rewrite py_int_str]. split; [apply str_Z_nonempty|]. split.
  - clear E. induction (str_Z z) as [|a s IH]; [reflexivity|]. cbn in *. apply andb_prop in N as [Na N]. now rewrite (numeric_not_space _ Na), IH.
  - destruct (str_Z z) as [|a s]; [reflexivity|]. cbn in *. apply andb_prop in N as [Na _]. destruct a as [[] [] [] [] [] [] [] []]; try discriminate; reflexivity.
Qed.
Definition head0 (t title file : string) : dict :=
  [("Format", VS "McCode with text headers"); ("URL", VS "http://www.mccode.org"); ("Creator", VS "McStas 3.4"); ("Instrument", VS "a.instr"); ("Ncount", VI 30); ("Trace", VS "no"); ("Gravitation", VS "no"); ("Seed", VS "1 2"); ("Directory", VS "out");
   ("Date", VS "Tue Nov 17 01:02:03"); ("type", VS t); ("Source", VS "a (a.instr)"); ("component", VS "mon"); ("position", VS "0 0 1"); ("title", VS title); ("filename", VS file); ("statistics", VS "X0=1; dX=2"); ("signal", VS "Min=0; Max=8"); ("values", VS "12 3 4");
   ("yvar", VS "(I,I_err)"); ("ylabel", VS "Intensity"); ("xvar", VS "t"); ("xlabel", VS "Time [\gms]"); ("xlimits", VS "0 4"); ("zvar", VS "I"); ("zlabel", VS "Signal"); ("xylimits", VS "0 4 0 2"); ("note", VS "not kept")].
Definition one_dim (t : string) (nx : nat) (l : list Z) : dat :=
  mkDat D1 (head0 ("array_1d(" +++ str_nat nx +++ ")") t "mon.dat" ++ [("variables", VS "x I I_err N")]) [("a", VS "1"); ("file", VS "x=y.dat")] ["x"; "I"; "I_err"; "N"] (mkArr [4; nx] (map q l)).
Definition two_dim (file : string) (l : list Z) : dat :=
  mkDat D2 (head0 "array_2d(2, 1)" "" file ++ [("variables", VS "I I_err N")]) [] ["I"; "I_err"; "N"] (mkArr [3; 1; 2] (map q l)).
Definition clean_b (s : string) : bool := negb (has_char nl s) && (strip s =?s s) && negb (endswith "#" s).
Lemma clean_iff s : clean_b s = true -> clean s.
Proof. unfold clean_b, clean, oneline. intro H. apply andb_prop in H as [H E]. apply andb_prop in H as [O T]. apply negb_true_iff in O, E. apply String.eqb_eq in T. auto. Qed.
Fixpoint nodup_b (l : list string) : bool := match l with [] => true | x :: l => negb (existsb (String.eqb x) l) && nodup_b l end.
Lemma nodup_iff (l : list string) : nodup_b l = true -> NoDup l.
Proof.
  induction l as [|x l IH]; [constructor|]. cbn. intro H. apply andb_prop in H as [H1 H2]. constructor; [|auto]. intro I. apply negb_true_iff in H1.
  assert (X : existsb (String.eqb x) l = true) by (apply existsb_exists; exists x; split; [exact I|apply String.eqb_refl]). congruence.
Qed.
Definition texts_b (d : dat) : bool := forallb (fun k => match get (metadata d) k with Some v => clean_b (str_of v) | None => true end) (kept (dkind d)).
Lemma texts_iff d : texts_b d = true -> forall k v, In k (kept (dkind d)) -> get (metadata d) k = Some v -> clean (str_of v).
Proof. unfold texts_b. intros H k v I G. rewrite forallb_forall in H. specialize (H k I). rewrite G in H. now apply clean_iff. Qed.
Definition complete_b (d : dat) : bool := forallb (fun k => match get (metadata d) k with Some _ => true | None => false end) (kept (dkind d)).
Lemma complete_iff d : complete_b d = true -> complete d.
Proof. intros H k I G. unfold complete_b in H. rewrite forallb_forall in H. specialize (H k I). now rewrite G in H. Qed.
Definition ex1 : dat := one_dim "monitor in a tank" 2 [0; 4; 12; 14; 7; 7; 3; 3]%Z.
Lemma one_dim_sound t nx l : clean_b t = true -> nx = 2 \/ nx = 4 -> List.length l = 4 * nx -> sound_texts (one_dim t nx l) /\ complete (one_dim t nx l).
Proof.
  intros T Nx L. assert (Tc : clean t) by now apply clean_iff. split.
  - split; [|split; [|split; [|split]]].
    + split; [destruct Nx as [-> | ->]; reflexivity|]. split; [unfold well_shaped, size; cbn [data one_dim flat shape fold_right]; rewrite map_length; lia|]. split; apply nodup_iff; reflexivity.
    + eexists. split; reflexivity.
    + eexists. split; reflexivity.
    + intros k v I G. destruct (String.eqb_spec k "title") as [->|N]; [cbn in G; inversion G; exact Tc|]. apply (texts_iff (one_dim "" nx l)) with (k := k); [destruct Nx as [-> | ->]; reflexivity|exact I|].
      rewrite <- G. unfold one_dim, head0. cbn [metadata app get]. repeat match goal with |- context [if ?a =?s k then _ else _] => destruct (String.eqb_spec a k) as [<-|?]; [try reflexivity; congruence|] end. reflexivity.
    + repeat constructor; cbn [fst snd str_of]; try reflexivity.
  - apply complete_iff. destruct Nx as [-> | ->]; reflexivity.
Qed.
Example C63_example : sound ex1 /\ complete ex1 /\ filled ex1 /\ Forall (printable show0 parse0) (flat (data ex1)) /\
  exists s d', write_text show0 ex1 = Some s /\ read_text parse0 s = Some d' /\ data d' = data ex1 /\ get (metadata d') "note" = None /\ get (metadata d') "Ncount" = Some (VS "30") /\ parameters d' = [("a", VS "1"); ("file", VS "x=y.dat")].
Proof.
  destruct (one_dim_sound "monitor in a tank" 2 [0; 4; 12; 14; 7; 7; 3; 3]%Z) as [S C]; [reflexivity|now left|reflexivity|].
  assert (P : Forall (printable show0 parse0) (flat (data ex1))) by apply printable0.
  assert (So : sound ex1) by (split; [exists 2; split; [reflexivity|cbn; lia]|exact S]).
  split; [exact So|]. split; [exact C|]. split.
  { intros k v [I|I]; cbn in I; repeat (destruct I as [I|I]; [inversion I; subst; intro X; try discriminate X; discriminate|]); contradiction. }
  split; [exact P|]. destruct (C63_written_is_read show0 parse0 ex1 So C P) as (s & d' & H1 & H2 & H3 & _ & _ & H4 & H5 & H6). exists s, d'. repeat (split; [assumption|]). split.
  - destruct (get (metadata d') "note") eqn:G; [|reflexivity]. destruct (H6 "note") as [X _]; [cbn; intuition discriminate|congruence|discriminate X].
  - split; [rewrite H5 by (cbn; tauto); reflexivity|exact H4].
Qed.
Example C63_example_text : exists s, write_text show0 ex1 = Some s /\ plain s = true /\ List.length (readlines s) = 30.
Proof. eexists. split; [vm_compute; reflexivity|]. split; vm_compute; reflexivity. Qed.
(* two files on disk combined into one *)
Example C63_combined_example : exists s d d' r,
  write_combined show0 parse0 [match write_text show0 ex1 with Some s => s | None => "" end; match write_text show0 ex1 with Some s => s | None => "" end] = Some s /\
  read_text parse0 (match write_text show0 ex1 with Some s => s | None => "" end) = Some d /\ sound d /\ filled d /\ complete d /\ combine_mccode_dats [d; d] = Some r /\ Forall (printable show0 parse0) (flat (data r)) /\
  read_text parse0 s = Some d' /\ flat (data d') = map q [0; 4; 24; 28; 14; 14; 6; 6]%Z.
Proof.
  set (w := match write_text show0 ex1 with Some s => s | None => "" end).
  assert (R : exists d, read_text parse0 w = Some d /\ sound d /\ filled d /\ complete d).
  { destruct C63_example as (So & C & _ & P & _). destruct (C63_written_is_read show0 parse0 ex1 So C P) as (s & d' & H1 & H2 & H3). exists d'. unfold w. rewrite H1. split; [exact H2|].
    assert (Sd : sound d').
    { apply (C63_read_is_sound parse0 s); [destruct C63_example_text as (s' & E & Pl & _); congruence|exact H2| |].
      - destruct H3 as (_ & _ & _ & _ & H5 & _). rewrite H5 by (cbn; tauto). discriminate.
      - destruct H3 as (H3 & K & V & _). unfold shape_ok. rewrite K, V, H3. exists 2. split; [reflexivity|cbn; lia]. }
    split; [exact Sd|]. split.
    - destruct H3 as (_ & _ & _ & Pp & H5 & H6). intros k v [I|I] F.
      + assert (G : get (metadata d') k = Some v) by (apply get_nodup; [apply Sd|exact I]). destruct (in_dec string_dec k (kept (dkind ex1))) as [J|J].
        * rewrite H5 in G by exact J. cbn in J. repeat (destruct J as [J|J]; [subst k; cbn in G; inversion G; subst; try discriminate F; discriminate|]). contradiction.
        * destruct (H6 k J) as [X _]; [congruence|discriminate X].
      + rewrite Pp in I. cbn in I. repeat (destruct I as [I|I]; [inversion I; subst; discriminate F|]). contradiction.
    - intros k I G. destruct H3 as (_ & K & _ & _ & H5 & _). rewrite K in I. rewrite H5 in G by exact I. apply (C k I). destruct (get (metadata ex1) k); [discriminate|reflexivity]. }
  destruct R as (d & R & Sd & Fd & Cd).
  assert (X : exists d0 r, read_text parse0 w = Some d0 /\ combine_mccode_dats [d0; d0] = Some r /\ flat (data r) = map q [0; 4; 24; 28; 14; 14; 6; 6]%Z).
  { eexists. eexists. split; [vm_compute; reflexivity|]. split; [vm_compute; reflexivity|]. vm_compute. reflexivity. }
  destruct X as (d0 & r & R0 & Cr & Fr). clearbody w. assert (d0 = d) by congruence. subst d0.
  assert (P : Forall (printable show0 parse0) (flat (data r))) by (rewrite Fr; apply printable0).
  destruct (C63_combined_file show0 parse0 [w; w] d [d]) with (r := r) as (s & d' & H1 & H2 & H3 & _); [cbn [map all_some]; now rewrite R|exact (Forall_cons _ Sd (Forall_cons _ Sd (Forall_nil _)))|exact Fd|exact Cd|exact Cr|exact P|].
  exists s, d, d', r. repeat (split; [assumption|]). destruct H3 as (-> & _). exact Fr.
Qed.
(* the findings *)
Example square_example : exists s d', sound_texts (one_dim "" 4 [0; 1; 2; 3; 12; 13; 14; 15; 7; 7; 7; 7; 3; 3; 3; 3]%Z) /\ write_text show0 (one_dim "" 4 [0; 1; 2; 3; 12; 13; 14; 15; 7; 7; 7; 7; 3; 3; 3; 3]%Z) = Some s /\
  read_text parse0 s = Some d' /\ flat (data d') = map q [0; 12; 7; 3; 1; 13; 7; 3; 2; 14; 7; 3; 3; 15; 7; 3]%Z.
Proof.
  eexists. eexists. split; [apply one_dim_sound; [reflexivity|now right|reflexivity]|]. split; [vm_compute; reflexivity|]. split; [vm_compute; reflexivity|]. vm_compute. reflexivity.
Qed.
Lemma two_dim_sound file l : file = "a.dat" \/ file = "b.dat" -> List.length l = 6 -> sound (two_dim file l).
Proof.
  intros F L. split; [exists 1, 2; repeat split; cbn; lia|]. split; [|split; [|split; [|split]]].
  - split; [reflexivity|]. split; [unfold well_shaped, size; cbn [data two_dim flat shape fold_right]; rewrite map_length; lia|]. split; apply nodup_iff; reflexivity.
  - eexists. split; reflexivity.
  - eexists. split; reflexivity.
  - apply texts_iff. destruct F as [-> | ->]; reflexivity.
  - constructor.
Qed.
Example two_dimensional_names_example : sound (two_dim "a.dat" [1; 2; 3; 4; 5; 6]%Z) /\ sound (two_dim "b.dat" [1; 2; 3; 4; 5; 6]%Z) /\ special_ignore (strip (label_text "Data" "mon" "b.dat" "I")) = false /\
  exists s1 s2 e1 e2, write_text show0 (two_dim "a.dat" [1; 2; 3; 4; 5; 6]%Z) = Some s1 /\ write_text show0 (two_dim "b.dat" [1; 2; 3; 4; 5; 6]%Z) = Some s2 /\ read_text parse0 s1 = Some e1 /\ read_text parse0 s2 = Some e2 /\
    data e1 = data (two_dim "a.dat" [1; 2; 3; 4; 5; 6]%Z) /\ dat_add e1 e2 = None /\ dat_add e1 e1 <> None.
Proof.
  split; [apply two_dim_sound; [now left|reflexivity]|]. split; [apply two_dim_sound; [now right|reflexivity]|]. split; [reflexivity|].
  eexists. eexists. eexists. eexists. split; [vm_compute; reflexivity|]. split; [vm_compute; reflexivity|]. split; [vm_compute; reflexivity|]. split; [vm_compute; reflexivity|]. split; [vm_compute; reflexivity|]. split; [vm_compute; reflexivity|]. vm_compute. discriminate.
Qed.
Example fourth_table_example : dkind (mkDat D2 (head0 "array_2d(1, 1)" "" "a.dat" ++ [("variables", VS "I I_err N M")]) [] ["I"; "I_err"; "N"; "M"] (mkArr [4; 1; 1] (map q [1; 2; 3; 4]%Z))) = D2.
Proof. reflexivity. Qed.
Definition empty1 : dat := mkDat D1 (head0 "array_1d(0)" "" "a.dat" ++ [("variables", VS "x I I_err N")]) [] ["x"; "I"; "I_err"; "N"] (mkArr [4; 0] []).
Example no_bins_example : sound_texts empty1 /\ exists s, write_text show0 empty1 = Some s.
Proof.
  split; [|eexists; vm_compute; reflexivity]. split; [|split; [|split; [|split]]].
  - split; [reflexivity|]. split; [reflexivity|]. split; apply nodup_iff; reflexivity.
  - eexists. split; reflexivity.
  - eexists. split; reflexivity.
  - apply texts_iff. reflexivity.
  - constructor.
Qed.
(** A value that ends in # loses it: a title like "run #" comes back without. *)
Theorem C63_hash_lost_refuted : exists d s d', write_text show0 d = Some s /\ read_text parse0 s = Some d' /\ data d' = data d /\ get (metadata d) "title" = Some (VS "run #") /\ get (metadata d') "title" = Some (VS "run").
Proof. exists (one_dim "run #" 2 [0; 4; 12; 14; 7; 7; 3; 3]%Z). eexists. eexists. split; [vm_compute; reflexivity|]. split; [vm_compute; reflexivity|]. repeat split; vm_compute; reflexivity. Qed.
Print Assumptions C63_hash_lost_refuted.

(** * Items and axes *)
Lemma places_none x l : forall i, ~ In x l -> places x l i = [].
Proof. induction l as [|y l IH]; intros i N; [reflexivity|]. cbn. destruct (String.eqb_spec y x) as [->|]; [exfalso; apply N; now left|]. apply IH. intro I. apply N. now right. Qed.
Lemma places_in x l : forall i, In x l -> places x l i <> [].
Proof. induction l as [|y l IH]; intros i; [intros []|]. cbn. destruct (String.eqb_spec y x) as [->|N]; [discriminate|]. intros [E|I]; [congruence|]. exact (IH _ I). Qed.
Lemma places_once x l : forall i j, NoDup l -> nth_error l j = Some x -> places x l i = [i + j].
Proof.
  induction l as [|y l IH]; intros i j D E; [destruct j; discriminate|]. inversion D as [|? ? Ny Dl]; subst. cbn. destruct j as [|j]; cbn in E.
  - inversion E; subst. rewrite String.eqb_refl, places_none by exact Ny. cbn. f_equal. lia.
  - destruct (String.eqb_spec y x) as [->|_]; [exfalso; apply Ny; now apply nth_error_In in E|]. cbn. rewrite (IH _ _ Dl E). f_equal. lia.
Qed.
Lemma places_twice x l : forall i k, places x l i = [k] -> forall a b, nth_error l a = Some x -> nth_error l b = Some x -> a = b.
Proof.
  induction l as [|y l IH]; intros i k P a b A B; [destruct a; discriminate|]. cbn in P. destruct (String.eqb_spec y x) as [->|N].
  - cbn in P. assert (Z : places x l (S i) = []) by (destruct (places x l (S i)); [reflexivity|discriminate]).
    assert (Nx : ~ In x l) by (intro I; exact (places_in x l (S i) I Z)). destruct a, b; cbn in A, B; auto; exfalso; apply Nx; eapply nth_error_In; eauto.
  - cbn in P. destruct a as [|a]; [cbn in A; congruence|]. destruct b as [|b]; [cbn in B; congruence|]. f_equal. exact (IH _ _ P a b A B).
Qed.
(** What d[x] gives: the row of the variable x, if there is one variable of that name; else the parameter x; else the value of the key x.  A variable named twice has no row. *)
Theorem C64_items : forall d x,
  (forall i, NoDup (variables d) -> nth_error (variables d) i = Some x -> getitem d x = Some (Row i)) /\
  (forall a b, a <> b -> nth_error (variables d) a = Some x -> nth_error (variables d) b = Some x -> getitem d x = None) /\
  (forall v, ~ In x (variables d) -> get (parameters d) x = Some v -> getitem d x = Some (Value v)) /\
  (forall v, ~ In x (variables d) -> ~ In x (keys (parameters d)) -> get (metadata d) x = Some v -> getitem d x = Some (Value v)) /\
  (~ In x (variables d) -> ~ In x (keys (parameters d)) -> ~ In x (keys (metadata d)) -> getitem d x = None).
Proof.
  intros d x. unfold getitem. split; [|split; [|split; [|split]]].
  - intros i D E. now rewrite (places_once _ _ 0 i D E).
  - intros a b Ne A B. destruct (places x (variables d) 0) as [|k [|? ?]] eqn:P; [|exfalso; apply Ne; exact (places_twice _ _ _ _ P a b A B)|reflexivity].
    exfalso. apply nth_error_In in A. exact (places_in _ _ _ A P).
  - intros v N G. rewrite places_none by exact N. now rewrite G.
  - intros v N Np G. rewrite places_none by exact N. apply get_none in Np. now rewrite Np, G.
  - intros N Np Nm. rewrite places_none by exact N. apply get_none in Np. apply get_none in Nm. now rewrite Np, Nm.
Qed.
Print Assumptions C64_items.
Definition Zc (z : Z) : Qc := Q2Qc (inject_Z z).
Lemma Zc_add a b : Zc (a + b) = (Zc a + Zc b)%Qc.
Proof. apply Qc_is_canon. unfold Zc, Qcplus. cbn [this Q2Qc]. rewrite !Qred_correct, inject_Z_plus. reflexivity. Qed.
Lemma Zc_inj a b : Zc a = Zc b -> a = b.
Proof. unfold Zc. intro H. apply Q2Qc_eq_iff in H. unfold Qeq, inject_Z in H; cbn in H; lia. Qed.
Lemma Zc_0 : Zc 0 = 0%Qc. Proof. now apply Qc_is_canon. Qed.
Lemma Zc_1 : Zc 1 = 1%Qc. Proof. now apply Qc_is_canon. Qed.
(** the width of a bin for n centres from lower to upper *)
Definition width (n : nat) (lower upper : Qc) : Qc := ((upper - lower) / Zc (Z.of_nat n - 1))%Qc.
Lemma boundaries_nth n lower upper i : 2 <= n -> i <= n ->
  nth i (linspace (lower - width n lower upper / Zc 2) (upper + width n lower upper / Zc 2) (S n)) 0%Qc = (lower + (Zc (Z.of_nat i) - / Zc 2) * width n lower upper)%Qc.
Proof.
  intros N I. unfold linspace. set (f := fun i0 => _). rewrite (nth_indep _ 0%Qc (f 0)) by (rewrite map_length, seq_length; lia). rewrite map_nth, seq_nth by lia. unfold f. cbn [plus]. clear f.
  replace (Z.of_nat (S n) - 1)%Z with (Z.of_nat n) by lia. fold (Zc (Z.of_nat i)). fold (Zc (Z.of_nat n)). 
  assert (Nn : Zc (Z.of_nat n) <> 0%Qc) by (rewrite <- Zc_0; intro H; apply Zc_inj in H; lia).
  assert (N1 : Zc (Z.of_nat n - 1) <> 0%Qc) by (rewrite <- Zc_0; intro H; apply Zc_inj in H; lia).
  assert (N2 : Zc 2 <> 0%Qc) by (rewrite <- Zc_0; intro H; apply Zc_inj in H; lia).
  assert (E2 : Zc 2 = (1 + 1)%Qc) by (change 2%Z with (1 + 1)%Z; now rewrite Zc_add, Zc_1).
  assert (En : Zc (Z.of_nat n) = (Zc (Z.of_nat n - 1) + 1)%Qc) by (rewrite <- Zc_1, <- Zc_add; f_equal; lia).
  unfold width. rewrite En in *. rewrite E2 in *. field. auto.
Qed.
(** The boundaries of an axis of n bins, 2 or more: one more than bins, equally far apart, with the bin centres from the lower to the upper limit of the header, both included. *)
Theorem C64_boundaries : forall n label unit lower upper, 2 <= n -> has_char " " label = false ->
  exists a w, dim_metadata n (label +++ " " +++ unit) lower upper = Some a /\ ax_length a = n /\ ax_label a = label /\ List.length (ax_boundaries a) = S n /\ w = ((upper - lower) / Zc (Z.of_nat n - 1))%Qc /\
    (forall i, i < n -> (nth (S i) (ax_boundaries a) 0 - nth i (ax_boundaries a) 0)%Qc = w /\
                        (nth (S i) (ax_boundaries a) 0 + nth i (ax_boundaries a) 0)%Qc = (Zc 2 * (lower + Zc (Z.of_nat i) * w))%Qc) /\
    (lower + Zc (Z.of_nat (n - 1)) * w)%Qc = upper.
Proof.
  intros n label unit lower upper N L. assert (N1 : Zc (Z.of_nat n - 1) <> 0%Qc) by (rewrite <- Zc_0; intro H; apply Zc_inj in H; lia).
  assert (N2 : Zc 2 <> 0%Qc) by (rewrite <- Zc_0; intro H; apply Zc_inj in H; lia).
  assert (E2 : Zc 2 = (1 + 1)%Qc) by (change 2%Z with (1 + 1)%Z; now rewrite Zc_add, Zc_1).
  unfold dim_metadata. change (label +++ " " +++ unit) with (label +++ String " " unit). rewrite split_once_here by exact L. replace (n =? 1) with false by (symmetry; apply Nat.eqb_neq; lia).
  eexists. exists (width n lower upper). split; [reflexivity|]. cbn [ax_length ax_label ax_boundaries]. fold (Zc (Z.of_nat n - 1)) (Zc 2). fold (width n lower upper).
  split; [reflexivity|]. split; [reflexivity|]. split; [unfold linspace; now rewrite map_length, seq_length|]. split; [reflexivity|]. split.
  - intros i Hi. rewrite !boundaries_nth by lia. replace (Z.of_nat (S i)) with (Z.of_nat i + 1)%Z by lia. rewrite Zc_add, Zc_1. split; [ring|]. rewrite E2 in *. field. exact N2.
  - unfold width. replace (Z.of_nat (n - 1)) with (Z.of_nat n - 1)%Z by lia. field. exact N1.
Qed.
Print Assumptions C64_boundaries.
(** The axes of a file: their lengths are those of the data, first x then y, with the labels and limits of the header; none for files without dimension. *)
Definition unshadowed (d : dat) (x : string) : Prop := ~ In x (variables d) /\ ~ In x (keys (parameters d)).
Lemma item_text_meta d x s : unshadowed d x -> get (metadata d) x = Some (VS s) -> item_text d x = Some s.
Proof. intros (N & P) G. unfold item_text. now rewrite (proj1 (proj2 (proj2 (proj2 (C64_items d x)))) (VS s) N P G). Qed.
Theorem C64_axes : forall parse d,
  (dkind d = D0 -> axes parse d = Some []) /\
  (forall nv n xl lims lo hi, dkind d = D1 -> shape (data d) = [nv; n] -> unshadowed d "xlimits" -> unshadowed d "xlabel" ->
     get (metadata d) "xlabel" = Some (VS xl) -> get (metadata d) "xlimits" = Some (VS lims) -> map parse (split_ws lims) = [Some lo; Some hi] ->
     axes parse d = option_map (fun a => [a]) (dim_metadata n xl lo hi)) /\
  (forall nv ny nx xl yl lims a b c e, dkind d = D2 -> shape (data d) = [nv; ny; nx] -> unshadowed d "xylimits" -> unshadowed d "xlabel" -> unshadowed d "ylabel" ->
     get (metadata d) "xlabel" = Some (VS xl) -> get (metadata d) "ylabel" = Some (VS yl) -> get (metadata d) "xylimits" = Some (VS lims) -> map parse (split_ws lims) = [Some a; Some b; Some c; Some e] ->
     axes parse d = match dim_metadata nx xl a b, dim_metadata ny yl c e with Some x, Some y => Some [x; y] | _, _ => None end).
Proof.
  intros parse d. unfold axes. split; [|split].
  - intros ->. reflexivity.
  - intros nv n xl lims lo hi -> -> U1 U2 G1 G2 F. rewrite (item_text_meta _ _ _ U1 G2), (item_text_meta _ _ _ U2 G1). unfold floats. rewrite F. cbn [all_some]. now destruct (dim_metadata n xl lo hi).
  - intros nv ny nx xl yl lims a b c e -> -> U1 U2 U3 G1 G2 G3 F. rewrite (item_text_meta _ _ _ U1 G3), (item_text_meta _ _ _ U2 G1), (item_text_meta _ _ _ U3 G2). unfold floats. rewrite F. reflexivity.
Qed.
Print Assumptions C64_axes.
Lemma sby_around f u : (match u with String a _ => f a = false | EmptyString => True end) -> rstrip_by f u = u -> strip_by f u = u.
Proof. intros A R. unfold strip_by. destruct u as [|a u]; [reflexivity|]. cbn [lstrip_by]. now rewrite A. Qed.
(** The unit is the text after the first blank of the label without brackets and blanks around it. *)
Theorem C64_unit : forall n label unit lower upper a, has_char " " label = false -> dim_metadata n (label +++ " [" +++ unit +++ "]") lower upper = Some a -> strip_by brackets unit = unit ->
  (unit <> "\gms" -> ax_unit a = unit) /\ (unit = "\gms" -> ax_unit a = "microseconds").
Proof.
  intros n label unit lower upper a L H U. unfold dim_metadata in H. change (label +++ " [" +++ unit +++ "]") with (label +++ String " " ("[" +++ unit +++ "]")) in H. rewrite split_once_here in H by exact L.
  assert (E : strip_by brackets ("[" +++ unit +++ "]") = unit).
  { unfold strip_by in *. cbn [append lstrip_by]. change (brackets "[") with true. cbn iota. rewrite <- U at 2. clear. induction unit as [|c u IH]; [reflexivity|]. cbn [append lstrip_by]. destruct (brackets c); [exact IH|].
    change (String c (u +++ "]")) with (String c u +++ String "]" ""). now apply rby_snoc. }
  rewrite E in H. destruct (n =? 1); [discriminate|]. inversion H. cbn [ax_unit]. destruct (String.eqb_spec unit "\gms"); split; intro; congruence.
Qed.
Print Assumptions C64_unit.
Example C64_example : exists a, axes parse0 (one_dim "" 4 (repeat 0%Z 16)) = Some [a] /\ ax_unit a = "microseconds" /\ ax_length a = 4 /\ ax_label a = "Time" /\
  getitem (one_dim "" 4 (repeat 0%Z 16)) "I_err" = Some (Row 2) /\ getitem (one_dim "" 4 (repeat 0%Z 16)) "a" = Some (Value (VS "1")) /\ getitem (one_dim "" 4 (repeat 0%Z 16)) "Ncount" = Some (Value (VI 30)) /\
  unshadowed (one_dim "" 4 (repeat 0%Z 16)) "xlimits".
Proof. eexists. split; [vm_compute; reflexivity|]. repeat split; try (vm_compute; reflexivity); cbn; intuition discriminate. Qed.
Example C64_unit_example : exists a, dim_metadata 3 "Wavelength [AA]" (q 0) (q 4) = Some a /\ ax_unit a = "AA" /\ nth 0 (ax_boundaries a) 0%Qc = q (-1) /\ nth 3 (ax_boundaries a) 0%Qc = q 5.
Proof. eexists. split; [reflexivity|]. split; [reflexivity|]. split; apply Qc_is_canon; reflexivity. Qed.
(** There are no axes for a file with one bin, whatever its header says: the width of a bin is a division by zero. *)
Theorem C64_single_bin_refuted : forall parse d nv, dkind d = D1 -> shape (data d) = [nv; 1] -> axes parse d = None.
Proof.
  intros parse d nv K S. unfold axes. rewrite K, S. destruct (item_text d "xlimits") as [s|]; [|reflexivity]. destruct (floats parse s) as [[|a [|b [|? ?]]]|]; try reflexivity. destruct (item_text d "xlabel") as [xl|]; [|reflexivity].
  unfold dim_metadata. destruct (split_once " " xl) as [[? ?]|]; reflexivity.
Qed.
Print Assumptions C64_single_bin_refuted.
Example single_bin_example : post_init (mkDat D1 [("type", VS "array_1d(1)"); ("xlabel", VS "x [m]"); ("xlimits", VS "0 1")] [] ["x"; "I"; "I_err"; "N"] (mkArr [4; 1] (map q [0; 1; 1; 1]%Z))) <> None.
Proof. vm_compute. discriminate. Qed.
(** There are no axes for a file whose label has no unit. *)
Theorem C64_label_without_unit_refuted : forall parse d xl, dkind d = D1 -> unshadowed d "xlabel" -> get (metadata d) "xlabel" = Some (VS xl) -> has_char " " xl = false -> axes parse d = None.
Proof.
  intros parse d xl K U G H. unfold axes. rewrite K. destruct (shape (data d)) as [|nv [|n ?]]; try reflexivity. destruct (item_text d "xlimits") as [s|]; [|reflexivity]. destruct (floats parse s) as [[|a [|b [|? ?]]]|]; try reflexivity.
  rewrite (item_text_meta _ _ _ U G). unfold dim_metadata. apply split_once_none in H. now rewrite H.
Qed.
Print Assumptions C64_label_without_unit_refuted.
Example label_without_unit_example : has_char " " "Time" = false /\ unshadowed (mkDat D1 [("xlabel", VS "Time")] [] ["x"] (mkArr [1; 2] [])) "xlabel".
Proof. repeat split; cbn; intuition discriminate. Qed.
(** An instrument parameter named like the key of the limits hides it: the axis runs between the two numbers of the parameter.  A single number there leaves no axes. *)
Theorem C64_parameter_hides_limits_refuted : forall parse d nv n xl s, dkind d = D1 -> shape (data d) = [nv; n] -> ~ In "xlimits" (variables d) -> unshadowed d "xlabel" -> get (metadata d) "xlabel" = Some (VS xl) -> get (parameters d) "xlimits" = Some (VS s) ->
  (forall a b, map parse (split_ws s) = [Some a; Some b] -> axes parse d = option_map (fun x => [x]) (dim_metadata n xl a b)) /\ (List.length (split_ws s) = 1 -> axes parse d = None).
Proof.
  intros parse d nv n xl s K Sh N U G P. unfold axes. rewrite K, Sh. assert (I : item_text d "xlimits" = Some s).
  { unfold item_text. now rewrite (proj1 (proj2 (proj2 (C64_items d "xlimits"))) (VS s) N P). }
  rewrite I, (item_text_meta _ _ _ U G). unfold floats. split.
  - intros a b ->. cbn [all_some]. now destruct (dim_metadata n xl a b).
  - intro L. destruct (split_ws s) as [|x [|? ?]]; cbn in L; try lia. cbn. now destruct (parse x).
Qed.
Print Assumptions C64_parameter_hides_limits_refuted.
Example parameter_hides_limits_example : axes parse0 (mkDat D1 [("xlabel", VS "x [m]"); ("xlimits", VS "0 4")] [("xlimits", VS "7")] ["x"] (mkArr [1; 2] [])) = None /\ axes parse0 (mkDat D1 [("xlabel", VS "x [m]"); ("xlimits", VS "0 4")] [] ["x"] (mkArr [1; 2] [])) <> None.
Proof. split; [reflexivity|]. vm_compute. discriminate. Qed.
(** If the limits of the header are the outer edges of the n bins (what the C runtime writes is not part of this model), the boundaries are not those edges: the first one is less than the lower limit by half a bin. *)
Theorem C64_limits_as_edges_refuted : forall n label unit lower upper a, 2 <= n -> has_char " " label = false -> lower <> upper -> dim_metadata n (label +++ " " +++ unit) lower upper = Some a ->
  nth 0 (ax_boundaries a) 0%Qc <> lower /\ nth n (ax_boundaries a) 0%Qc <> upper.
Proof.
  intros n label unit lower upper a N L Ne H. unfold dim_metadata in H. change (label +++ " " +++ unit) with (label +++ String " " unit) in H. rewrite split_once_here in H by exact L. replace (n =? 1) with false in H by (symmetry; apply Nat.eqb_neq; lia).
  inversion H. cbn [ax_boundaries]. clear H. fold (Zc (Z.of_nat n - 1)) (Zc 2). fold (width n lower upper). rewrite !boundaries_nth by lia.
  assert (N1 : Zc (Z.of_nat n - 1) <> 0%Qc) by (rewrite <- Zc_0; intro H; apply Zc_inj in H; lia).
  assert (N2 : Zc 2 <> 0%Qc) by (rewrite <- Zc_0; intro H; apply Zc_inj in H; lia).
  assert (W : (width n lower upper * Zc (Z.of_nat n - 1))%Qc = (upper - lower)%Qc) by (unfold width; field; exact N1).
  assert (W0 : width n lower upper <> 0%Qc). { intro E. rewrite E in W. apply Ne. transitivity (lower + (upper - lower))%Qc; [rewrite <- W; ring|ring]. }
  assert (Half : forall x y, (x + / Zc 2 * width n lower upper)%Qc = y -> y = x -> False).
  { intros x y E1 E2. apply W0. transitivity (Zc 2 * ((x + / Zc 2 * width n lower upper) - x))%Qc; [field; exact N2|]. rewrite E1, E2. ring. }
  change (Z.of_nat 0) with 0%Z. rewrite Zc_0. split; intro E.
  - apply (Half (lower + (0 - / Zc 2) * width n lower upper)%Qc lower); [ring|now symmetry].
  - assert (En : Zc (Z.of_nat n) = (Zc (Z.of_nat n - 1) + 1)%Qc) by (rewrite <- Zc_1, <- Zc_add; f_equal; lia).
    assert (E2 : Zc 2 = (1 + 1)%Qc) by (change 2%Z with (1 + 1)%Z; now rewrite Zc_add, Zc_1).
    apply (Half upper (lower + (Zc (Z.of_nat n) - / Zc 2) * width n lower upper)%Qc); [|exact E]. rewrite En. clear E. generalize dependent (width n lower upper). intros w W _ _. transitivity (upper + (1 - / Zc 2) * w)%Qc; [rewrite E2 in *; field; exact N2|].
    transitivity (lower + (upper - lower) + (1 - / Zc 2) * w)%Qc; [ring|]. rewrite <- W. ring.
Qed.
Print Assumptions C64_limits_as_edges_refuted.
