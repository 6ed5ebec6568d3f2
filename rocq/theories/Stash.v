(** The stored copy of a remote registry's listing. src/mccode_antlr/reader/registry.py 219-257 GitHubRegistry.__init__ *)
From Coq Require Import List String Ascii Bool Arith Lia.
From Verif Require Import PyStr TextLines.
Import ListNotations.
Local Open Scope string_scope.
Local Open Scope list_scope.
Local Open Scope nat_scope.

(** a Python dictionary in order of insertion *)
Definition listing := list (string * string).
(** d[k] = v *)
Fixpoint put (d : listing) (k v : string) : listing :=
  match d with [] => [(k, v)] | (k', v') :: t => if k' =?s k then (k', v) :: t else (k', v') :: put t k v end.

(** the characters before the first white space, and the rest *)
Fixpoint word (s : string) : string * string :=
  match s with
  | EmptyString => ("", "")
  | String a t => if is_space a then ("", s) else let (w, r) := word t in (String a w, r)
  end.
(** s.split(maxsplit=1) *)
Definition split1 (s : string) : list string :=
  match lstrip s with
  | "" => []
  | s' => let (w, r) := word s' in match lstrip r with "" => [w] | r' => [w; r'] end
  end.
(** k, v for each line, in a dictionary; None: a line does not have two parts (ValueError) *)
Fixpoint pairs (d : listing) (ls : list string) : option listing :=
  match ls with
  | [] => Some d
  | l :: t => match split1 l with [k; v] => pairs (put d k v) t | _ => None end
  end.
(** file.readlines(), without the line ends: the text after the last line end is a line if it is not empty.
    Files with carriage returns are not modelled (universal newlines). *)
Definition readlines (s : string) : list string :=
  let ls := split_char nl s in if List.last ls "" =?s "" then removelast ls else ls.
(** 240-241: reading the stored file *)
Definition read_stash (s : string) : option listing := pairs [] (map strip (readlines s)).
(** 250: interpreting the downloaded text *)
Definition read_download (s : string) : option listing := pairs [] (filter (fun x => negb (x =?s "")) (split_char nl s)).
(** 253-254: the text that is stored *)
Definition stash (d : listing) : string := join (String nl "") (map (fun kv => fst kv +++ " " +++ snd kv) d).

(** The stored file is absent (None) or has some contents.  One start of the program: 234-241 use the file if it exists, else
    fetch and store (242-254).  Result: the listing used (None: an exception), whether it was fetched, and the file afterwards. *)
Definition start (disk : option string) (download : string) : option listing * bool * option string :=
  match disk with
  | Some s => (read_stash s, false, disk)
  | None => match read_download download with
            | Some d => (Some d, true, Some (stash d))
            | None => (None, true, None)
            end
  end.
(** What an interruption can leave of a first start: nothing yet, or the file with any beginning of its text (open truncates to
    the empty text; the text is written piece by piece). *)
Inductive interrupted (download : string) : option string -> Prop :=
| before : interrupted download None
| during d p r : read_download download = Some d -> stash d = p +++ r -> interrupted download (Some p).

(** * Facts *)
Lemma word_app w r : all_chars (fun a => negb (is_space a)) w = true -> word (w +++ String " " r) = (w, String " " r).
Proof. induction w as [|a w IH]; cbn; [reflexivity|]. intro H. apply andb_prop in H as [H1 H2]. apply negb_true_iff in H1. rewrite H1, (IH H2). reflexivity. Qed.
Lemma word_all w : all_chars (fun a => negb (is_space a)) w = true -> word w = (w, "").
Proof. induction w as [|a w IH]; cbn; [reflexivity|]. intro H. apply andb_prop in H as [H1 H2]. apply negb_true_iff in H1. rewrite H1, (IH H2). reflexivity. Qed.
(** specification: keys that the format keeps *)
Definition key (k : string) : Prop := k <> "" /\ all_chars (fun a => negb (is_space a)) k = true.
(** specification: values that the format keeps *)
Definition val (v : string) : Prop := v <> "" /\ trimmed v = true /\ has_char nl v = false.
Lemma key_lstrip k s : key k -> lstrip (k +++ s) = k +++ s.
Proof. intros [N A]. destruct k as [|a k]; [contradiction|]. cbn in *. apply andb_prop in A as [A _]. apply negb_true_iff in A. now rewrite A. Qed.
Lemma split1_pair k v : key k -> v <> "" -> lstrip v = v -> split1 (k +++ " " +++ v) = [k; v].
Proof.
  intros K N L. unfold split1. rewrite (key_lstrip k _ K). destruct K as [Nk A].
  pose proof (word_app k v A) as W. change (k +++ " " +++ v) with (k +++ String " " v).
  destruct (k +++ String " " v) as [|a x] eqn:E; [destruct k; discriminate|]. rewrite W.
  change (lstrip (String " " v)) with (lstrip v). rewrite L. destruct v; [contradiction|reflexivity].
Qed.
Lemma split1_key k : key k -> split1 k = [k].
Proof.
  intros K. unfold split1. rewrite <- (string_app_nil_r k) at 1. rewrite (key_lstrip k _ K), string_app_nil_r. destruct K as [N A].
  destruct k as [|a k]; [contradiction|]. now rewrite (word_all _ A).
Qed.
Lemma put_new d k v : ~ In k (map fst d) -> put d k v = d ++ [(k, v)].
Proof.
  induction d as [|[a b] d IH]; cbn; [reflexivity|]. intro H. destruct (String.eqb_spec a k) as [->|]; [tauto|]. rewrite IH by tauto. reflexivity.
Qed.
Lemma pairs_app d a b : pairs d (a ++ b) = match pairs d a with Some d' => pairs d' b | None => None end.
Proof. revert d. induction a as [|l a IH]; intro d; cbn; [reflexivity|]. destruct (split1 l) as [|k [|v [|]]]; auto. Qed.
Lemma pairs_lines d l : NoDup (map fst (d ++ l)) -> Forall (fun kv => key (fst kv) /\ snd kv <> "" /\ lstrip (snd kv) = snd kv) l ->
  pairs d (map (fun kv => fst kv +++ " " +++ snd kv) l) = Some (d ++ l).
Proof.
  revert d. induction l as [|[k v] l IH]; intros d N F; cbn [map pairs]; [now rewrite app_nil_r|].
  inversion F as [|? ? (A & B & C) F']; subst. cbn [fst snd] in *. rewrite (split1_pair k v A B C).
  rewrite put_new.
  - rewrite IH; [now rewrite <- app_assoc|now rewrite <- app_assoc|exact F'].
  - rewrite map_app in N. cbn in N. apply NoDup_remove_2 in N. intro I. apply N. apply in_or_app. now left.
Qed.
(** specification: entries that the format keeps *)
Definition entry (kv : string * string) : Prop := key (fst kv) /\ val (snd kv).
Lemma key_oneline k : key k -> has_char nl k = false.
Proof. intros [_ A]. apply (all_chars_absent _ nl _ A). reflexivity. Qed.
Lemma entry_line kv : entry kv -> has_char nl (fst kv +++ " " +++ snd kv) = false.
Proof. intros [K (_ & _ & V)]. rewrite !has_char_app, (key_oneline _ K), V. reflexivity. Qed.
Lemma entry_strip kv : entry kv -> strip (fst kv +++ " " +++ snd kv) = fst kv +++ " " +++ snd kv.
Proof.
  intros [K (N & T & _)]. unfold strip. rewrite (key_lstrip _ _ K). apply trimmed_eq in T. apply trimmed_fix in T as [_ T].
  assert (X : fst kv +++ " " +++ snd kv = (fst kv +++ " ") +++ snd kv) by now rewrite string_app_assoc. rewrite X.
  rewrite rstrip_app; rewrite T; [reflexivity|exact N].
Qed.
Lemma entry_nonempty kv : entry kv -> fst kv +++ " " +++ snd kv <> "".
Proof. intros [[K _] _]. destruct (fst kv); [contradiction|discriminate]. Qed.
Lemma split_stash d : d <> [] -> Forall entry d -> split_char nl (stash d) = map (fun kv => fst kv +++ " " +++ snd kv) d.
Proof.
  intros N F. unfold stash. apply split_char_join; [destruct d; [contradiction|discriminate]|].
  rewrite Forall_map. revert F. apply Forall_impl. apply entry_line.
Qed.
Lemma last_map {A B} (f : A -> B) l x y : l <> [] -> List.last (map f l) y = f (List.last l x).
Proof. induction l as [|a [|b l] IH]; [contradiction|reflexivity|]. intros _. cbn [map]. change (List.last (map f (b :: l)) y = f (List.last (b :: l) x)). now apply IH. Qed.
Lemma readlines_stash d : Forall entry d -> readlines (stash d) = map (fun kv => fst kv +++ " " +++ snd kv) d.
Proof.
  intro F. unfold readlines. destruct d as [|e d]; [reflexivity|]. rewrite (split_stash (e :: d)) by (auto; discriminate).
  rewrite (last_map _ (e :: d) e) by discriminate.
  assert (E : entry (List.last (e :: d) e)).
  { rewrite Forall_forall in F. apply F. destruct (exists_last (l := e :: d) ltac:(discriminate)) as (l & x & ->). rewrite last_last. apply in_or_app. right. now left. }
  apply entry_nonempty in E. apply String.eqb_neq in E. now rewrite E.
Qed.
Lemma map_strip d : Forall entry d -> map strip (map (fun kv => fst kv +++ " " +++ snd kv) d) = map (fun kv => fst kv +++ " " +++ snd kv) d.
Proof. induction 1 as [|e d E F IH]; [reflexivity|]. cbn [map]. now rewrite (entry_strip e E), IH. Qed.
Lemma entry_weak d : Forall entry d -> Forall (fun kv => key (fst kv) /\ snd kv <> "" /\ lstrip (snd kv) = snd kv) d.
Proof. apply Forall_impl. intros kv [K (N & T & _)]. apply trimmed_eq in T. apply trimmed_fix in T as [T _]. auto. Qed.
Lemma read_stash_stash d : NoDup (map fst d) -> Forall entry d -> read_stash (stash d) = Some d.
Proof. intros N F. unfold read_stash. rewrite (readlines_stash d F), (map_strip d F). apply (pairs_lines [] d N). now apply entry_weak. Qed.

(** ** sizes *)
Fixpoint size (d : listing) : nat := match d with [] => 0 | kv :: t => String.length (fst kv) + String.length (snd kv) + 2 + size t end.
(** proof helper: the length of lines *)
Fixpoint tot (ls : list string) : nat := match ls with [] => 0 | l :: t => String.length l + 1 + tot t end.
Lemma size_cons kv d : size (kv :: d) = String.length (fst kv) + String.length (snd kv) + 2 + size d.
Proof. reflexivity. Qed.
Lemma size_put d k v : size (put d k v) <= size d + (String.length k + String.length v + 2).
Proof.
  induction d as [|[a b] d IH]; cbn [put]; [unfold size; cbn; lia|]. destruct (String.eqb_spec a k) as [->|]; rewrite !size_cons; cbn [fst snd]; lia.
Qed.
Lemma lstrip_len s : String.length (lstrip s) <= String.length s.
Proof. destruct (lstrip_split s) as (w & _ & E). rewrite E at 2. rewrite string_app_length. lia. Qed.
Lemma strip_len s : String.length (strip s) <= String.length s.
Proof. destruct (strip_split s) as (w & w' & _ & _ & E). rewrite E at 2. rewrite !string_app_length. lia. Qed.
Lemma word_len s : forall w r, word s = (w, r) -> String.length w + String.length r = String.length s /\ (r = "" \/ exists a t, r = String a t /\ is_space a = true).
Proof.
  induction s as [|a s IH]; cbn; intros w r H; [injection H as <- <-; auto|]. destruct (is_space a) eqn:E.
  - injection H as <- <-. cbn. split; [reflexivity|]. right. eauto.
  - destruct (word s) as [w' r']. injection H as <- <-. destruct (IH w' r' eq_refl) as [IH1 IH2]. cbn. split; [lia|exact IH2].
Qed.
Lemma split1_len s k v : split1 s = [k; v] -> String.length k + String.length v + 1 <= String.length s.
Proof.
  unfold split1. pose proof (lstrip_len s) as L. destruct (lstrip s) as [|a x] eqn:E; [discriminate|].
  destruct (word (String a x)) as [w r] eqn:W. apply word_len in W as [W1 W2].
  destruct (lstrip r) as [|b y] eqn:R; [discriminate|]. intros [= <- <-].
  destruct W2 as [->|(c & t & -> & Sp)]; [discriminate|]. cbn in R. rewrite Sp in R. pose proof (lstrip_len t). rewrite R in H. cbn in *. lia.
Qed.
Lemma pairs_size ls : forall d d', pairs d ls = Some d' -> size d' <= size d + tot ls.
Proof.
  induction ls as [|l ls IH]; intros d d' H; cbn [pairs tot] in *; [injection H as <-; lia|].
  destruct (split1 l) as [|k [|v [|]]] eqn:E; try discriminate. apply IH in H. apply split1_len in E. pose proof (size_put d k v). lia.
Qed.
Lemma split_char_len c s : tot (split_char c s) = String.length s + 1.
Proof.
  induction s as [|a s IH]; [reflexivity|]. cbn [split_char]. destruct (Ascii.eqb a c); cbn.
  - rewrite IH. lia.
  - destruct (split_char c s) as [|h t] eqn:E; [now apply split_char_nonempty in E|]. cbn in *. lia.
Qed.
Lemma list_sum_strip ls : tot (map strip ls) <= tot ls.
Proof. induction ls as [|l ls IH]; cbn; [lia|]. pose proof (strip_len l). lia. Qed.
Lemma list_sum_removelast ls : tot (removelast ls) <= tot ls.
Proof. induction ls as [|l [|m ls] IH]; cbn in *; lia. Qed.
Lemma read_stash_size s d : read_stash s = Some d -> size d <= String.length s + 1.
Proof.
  unfold read_stash. intro H. apply pairs_size in H. change (size []) with 0 in H.
  pose proof (list_sum_strip (readlines s)). pose proof (split_char_len nl s). unfold readlines in *. pose proof (list_sum_removelast (split_char nl s)).
  destruct (_ =?s _); lia.
Qed.
Lemma stash_size d : d <> [] -> String.length (stash d) + 1 = size d.
Proof.
  unfold stash. induction d as [|[k v] d IH]; [contradiction|]. intros _. destruct d as [|e d].
  - cbn. rewrite !string_app_length. cbn. lia.
  - change (join (String nl "") (map (fun kv => fst kv +++ " " +++ snd kv) ((k, v) :: e :: d)))
      with ((k +++ " " +++ v) +++ String nl "" +++ join (String nl "") (map (fun kv => fst kv +++ " " +++ snd kv) (e :: d))).
    rewrite !string_app_length. specialize (IH ltac:(discriminate)). change (size ((k, v) :: e :: d)) with (String.length k + String.length v + 2 + size (e :: d)). cbn [String.length] in *. lia.
Qed.
