(** Collection and ordering of the C libraries. src/mccode_antlr/translators/c.py 11-71, 89-140, 246-265 *)
From Coq Require Import List String Ascii Bool Arith Lia Permutation.
From Verif Require Import PyStr.
Import ListNotations.
Local Open Scope string_scope.
Local Open Scope list_scope.
Local Open Scope nat_scope.

(** c.py 11-20 CInclude.  The content is left out: it is a function of the name.  [root] is the field set at 46-47. *)
Record inc := mkInc { i_parent : string; i_name : string; i_order : nat }.
(** CInclude.__eq__ of the dataclass, c.py:9-15 *)
Definition inc_dec (a b : inc) : {a = b} + {a <> b}.
Proof. decide equality; [apply Nat.eq_dec|apply String.string_dec|apply String.string_dec]. Defined.

(** str < str: by code points *)
Definition str_lt (a b : string) : bool := match String.compare a b with Lt => true | _ => false end.
(** c.py 23-35 CInclude.__lt__, with the same root set on both (46-47) *)
Definition inc_lt (root : string) (a b : inc) : bool :=
  if i_parent a =?s i_parent b then Nat.ltb (i_order b) (i_order a)
  else if negb (root =?s "") && (i_parent a =?s root) then true
  else if negb (root =?s "") && (i_parent b =?s root) then false
  else if i_parent a =?s i_name b then false
  else if i_parent b =?s i_name a then true
  else str_lt (i_name a) (i_name b).

(** list(dict.fromkeys(l)): the first of equal elements stays *)
Fixpoint uniq {A} (dec : forall a b : A, {a = b} + {a <> b}) (l : list A) : list A :=
  match l with [] => [] | x :: t => x :: filter (fun y => if dec x y then false else true) (uniq dec t) end.

(** c.py 50-54: of the sorted includes the first one for each name *)
Fixpoint first_of_name (used : list string) (l : list inc) : list inc :=
  match l with
  | [] => []
  | x :: t => if existsb (fun u => u =?s i_name x) used then first_of_name used t else x :: first_of_name (used ++ [i_name x]) t
  end.
(** c.py 60-61: the first position of a name in the order *)
Fixpoint position (n : string) (l : list string) : option nat :=
  match l with [] => None | x :: t => if x =?s n then Some 0 else option_map S (position n t) end.
(** c.py 57-64 *)
Definition contradicts (order : list string) (x : inc) : bool :=
  match position (i_parent x) order, position (i_name x) order with
  | Some p, Some n => Nat.ltb p n
  | _, _ => false
  end.
(** c.py 43: the parents that are not themselves included; in Python a set, so the order of the roots is not specified:
    the model takes any list [roots] with these elements *)
Definition is_root (l : list inc) (r : string) : Prop := (exists x, In x l /\ i_parent x = r) /\ (forall x, In x l -> i_name x <> r).
(** c.py 38-71 sort_include_hierarchy.  [sorted root l] is sorted(l, reverse=True); as the comparison is no order, nothing is assumed
    of its result but that it is a rearrangement of l.  None: RuntimeError *)
Fixpoint try_roots (sorted : string -> list inc -> list inc) (l : list inc) (roots : list string) : option (list inc) :=
  match roots with
  | [] => None
  | r :: t => let out := first_of_name [] (sorted r l) in
              if existsb (contradicts (map i_name out)) l then try_roots sorted l t else Some out
  end.
(** c.py:38-71 *)
Definition sort_hierarchy (sorted : string -> list inc -> list inc) (roots : list string) (l : list inc) : option (list inc) :=
  match l with [] => Some [] | _ => try_roots sorted l roots end.

(** * list.sort of CPython for fewer than 64 elements: the first run, then binary insertion (Objects/listobject.c count_run,
    binarysort).  With reverse=True the list is reversed before and after. *)
Section Sort.
Variable lt : inc -> inc -> bool.
(** list.sort of Python: a descending run at the start *)
Fixpoint run_desc (prev : inc) (l : list inc) : list inc * list inc :=
  match l with x :: t => if lt x prev then let (a, b) := run_desc x t in (x :: a, b) else ([], l) | [] => ([], []) end.
(** list.sort of Python: an ascending run at the start *)
Fixpoint run_asc (prev : inc) (l : list inc) : list inc * list inc :=
  match l with x :: t => if lt x prev then ([], l) else let (a, b) := run_asc x t in (x :: a, b) | [] => ([], []) end.
(** binarysort: l and r delimit the place *)
Fixpoint place (fuel : nat) (done : list inc) (pivot : inc) (l r : nat) : nat :=
  match fuel with
  | 0 => l
  | S f => if Nat.ltb l r then
             let p := l + (r - l) / 2 in
             match nth_error done p with
             | Some q => if lt pivot q then place f done pivot l p else place f done pivot (S p) r
             | None => l
             end
           else l
  end.
(** list.sort of Python: binary insertion *)
Fixpoint binsert (done rest : list inc) : list inc :=
  match rest with
  | [] => done
  | x :: t => let k := place (S (List.length done)) done x 0 (List.length done) in binsert (firstn k done ++ x :: skipn k done) t
  end.
(** list.sort of Python for less than 64 items *)
Definition small_sort (l : list inc) : list inc :=
  match l with
  | x :: y :: t => if lt y x then let (a, b) := run_desc y t in binsert (rev (x :: y :: a)) b
                   else let (a, b) := run_asc y t in binsert (x :: y :: a) b
  | _ => l
  end.
End Sort.
(** sorted(..., reverse=True), c.py:38-71 *)
Definition py_sorted (root : string) (l : list inc) : list inc := rev (small_sort (inc_lt root) (rev l)).

(** * c.py 89-140 _handle_raw_c_include *)
(** A block of C code: %include of a library (a name without a dot), %include of a file, other code *)
Inductive item := ILib (n : string) | IFile (n : string) | ICode (n : string).
(** the text found for a requested file name (74-87 _file_contents); None: RuntimeError *)
Definition files := string -> option (list item).
(** c.py:98-99 *)
Definition libs_of (raw : list item) : list string := uniq String.string_dec (flat_map (fun i => match i with ILib n => [n] | _ => [] end) raw).
(** 98-99 the library statements are erased *)
Definition erase (raw : list item) : list item := filter (fun i => match i with ILib _ => false | _ => true end) raw.
(** 117-133: the first %include that is left, of whatever kind, is replaced by the file's text, until there is none *)
Fixpoint split_include (raw : list item) : option (list item * string * list item) :=
  match raw with
  | [] => None
  | ICode c :: t => match split_include t with Some (a, n, b) => Some (ICode c :: a, n, b) | None => None end
  | (ILib n | IFile n) :: t => Some ([], n, t)
  end.
(** a result, an exception, or an endless recursion *)
Inductive res (A : Type) := Ok (a : A) | Err | Fuel.
Arguments Ok {A} _. Arguments Err {A}. Arguments Fuel {A}.
(** c.py:116-140: the text of included files *)
Fixpoint inline (fs : files) (fuel : nat) (raw : list item) : res (list item) :=
  match split_include raw with
  | None => Ok raw
  | Some (a, n, b) =>
    match fuel with
    | 0 => Fuel
    | S f => match fs n with Some c => inline fs f (a ++ c ++ b) | None => Err end
    end
  end.
(** 102-103 the library's own text comes from <name>.h *)
Fixpoint numbered {A} (k : nat) (l : list A) : list (nat * A) := match l with [] => [] | x :: t => (k, x) :: numbered (S k) t end.
(** a list comprehension in which every item may raise *)
Fixpoint all_res {A B} (f : A -> res B) (l : list A) : res (list B) :=
  match l with
  | [] => Ok []
  | x :: t => match f x with
              | Ok y => match all_res f t with Ok r => Ok (y :: r) | Err => Err | Fuel => Fuel end
              | Err => Err | Fuel => Fuel end
  end.
(** The texts of the libraries are all read (102-103) before any of them is searched (104-109); as only the outcome matters, reading
    and searching are done library by library here.  135-138: the second search after inlining finds no library since 117-133 leaves
    no %include; it adds nothing. *)
Fixpoint handle (fs : files) (fuel : nat) (parent : string) (raw : list item) : res (list inc * list item) :=
  match fuel with
  | 0 => Fuel
  | S f =>
    let libs := libs_of raw in
    let own := map (fun kn => mkInc parent (snd kn) (fst kn)) (numbered 0 libs) in
    match all_res (fun n => match fs (n ++ ".h")%string with
                            | Some text => match handle fs f n text with Ok (l, _) => Ok l | Err => Err | Fuel => Fuel end
                            | None => Err end) libs with
    | Ok found =>
      match inline fs f (erase raw) with
      | Ok c => Ok (uniq inc_dec (own ++ List.concat found), c)
      | Err => Err | Fuel => Fuel
      end
    | Err => Err | Fuel => Fuel
    end
  end.
(** 246-265: over all blocks, with the name of the instrument, component type or instance they belong to *)
Fixpoint collect (fs : files) (fuel : nat) (blocks : list (string * list item)) : res (list inc) :=
  match blocks with
  | [] => Ok []
  | (p, raw) :: t => match handle fs fuel p raw, collect fs fuel t with
                     | Ok (l, _), Ok r => Ok (uniq inc_dec (l ++ r))
                     | Fuel, _ | Ok _, Fuel => Fuel
                     | _, _ => Err
                     end
  end.

(** * c.py 326-344 include_header, include_source, and their use in visit_declare (354-372) with an embedded runtime *)
Inductive event := Header (n : string) | Source (n : string).
(** c.py:331-344 *)
Fixpoint emit_source (fs : files) (fuel : nat) (known : list string) (n : string) : res (list event) :=
  match fuel with
  | 0 => Fuel
  | S f =>
    match fs (n ++ ".c")%string with
    | None => Err
    | Some text =>
      match handle fs f (n ++ ".c")%string text with
      | Ok (l, _) =>
        match all_res (fun m => match emit_source fs f known m with Ok e => Ok (Header m :: e) | Err => Err | Fuel => Fuel end)
                      (filter (fun m => negb (existsb (fun k => k =?s m) known)) (map i_name l)) with
        | Ok es => Ok (List.concat es ++ [Source n])
        | Err => Err | Fuel => Fuel
        end
      | Err => Err | Fuel => Fuel
      end
    end
  end.
(** c.py:287-324 *)
Definition emit (fs : files) (fuel : nat) (incs : list inc) : res (list event) :=
  match all_res (emit_source fs fuel (map i_name incs)) (map i_name incs) with
  | Ok es => Ok (map (fun x => Header (i_name x)) incs ++ List.concat es)
  | Err => Err | Fuel => Fuel
  end.

(** * Facts *)
Lemma uniq_In {A} dec (l : list A) x : In x (uniq dec l) <-> In x l.
Proof.
  induction l as [|y l IH]; cbn; [tauto|]. rewrite filter_In, IH. destruct (dec y x) as [->|N]; [tauto|]. intuition.
Qed.
Lemma first_of_name_spec l : forall used,
  NoDup (map i_name (first_of_name used l))
  /\ (forall n, In n (map i_name (first_of_name used l)) <-> In n (map i_name l) /\ ~ In n used)
  /\ incl (first_of_name used l) l.
Proof.
  induction l as [|x l IH]; intro used; cbn [first_of_name map]; [split; [constructor|split; [intro n; cbn; tauto|intros ? []]]|].
  destruct (existsb (fun u => u =?s i_name x) used) eqn:E.
  - apply existsb_exists in E as (u & Iu & Eu). apply String.eqb_eq in Eu. subst u. destruct (IH used) as (D & Q & I). split; [exact D|]. split.
    + intro n. rewrite Q. cbn. split; [intros []; auto|]. intros [[<-|J] K]; [contradiction|auto].
    + intros y Hy. right. now apply I.
  - assert (Nx : ~ In (i_name x) used).
    { intro H. assert (existsb (fun u => u =?s i_name x) used = true) by (apply existsb_exists; exists (i_name x); split; [exact H|apply String.eqb_refl]). congruence. }
    destruct (IH (used ++ [i_name x])) as (D & Q & I). cbn [map]. split; [|split].
    + constructor; [|exact D]. rewrite Q. intros [_ H]. apply H. apply in_or_app. right. now left.
    + intro n. cbn. rewrite Q. split.
      * intros [<-|[A B]]; [auto|]. split; [auto|]. intro H. apply B. apply in_or_app. now left.
      * intros [[<-|A] B]; [auto|]. destruct (String.string_dec (i_name x) n) as [<-|Ne]; [auto|]. right. split; [exact A|].
        intro H. apply in_app_or in H as [H|[H|[]]]; auto.
    + intros y [<-|Hy]; [now left|right; now apply I].
Qed.
Lemma position_split n l k : position n l = Some k -> exists a b, l = a ++ n :: b /\ List.length a = k /\ ~ In n a.
Proof.
  revert k. induction l as [|x l IH]; intro k; cbn; [discriminate|]. destruct (String.eqb_spec x n) as [->|N].
  - intros [= <-]. exists [], l. repeat split. intros [].
  - destruct (position n l) as [j|]; [|discriminate]. intros [= <-]. destruct (IH j eq_refl) as (a & b & -> & L & Q). exists (x :: a), b. cbn. repeat split; [lia|]. intros [->|H]; contradiction.
Qed.
Lemma position_In n l : In n l -> exists k, position n l = Some k.
Proof. induction l as [|x l IH]; [intros []|]. cbn. destruct (String.eqb_spec x n); [eauto|]. intros [->|H]; [contradiction|]. destruct (IH H) as (k & ->). exists (S k). reflexivity. Qed.
(** n stands before m in l *)
Definition ahead (n m : string) (l : list string) : Prop := exists a b c, l = a ++ n :: b ++ m :: c.
Lemma position_ahead n m l i j : position n l = Some i -> position m l = Some j -> i < j -> ahead n m l.
Proof.
  intros Pn Pm L. destruct (position_split _ _ _ Pn) as (a & b & E & La & _). destruct (position_split _ _ _ Pm) as (c & d & E' & Lc & _).
  subst l. assert (X : exists x, c = a ++ n :: x).
  { clear Pn Pm. subst i j. revert c E' L. induction a as [|y a IH]; intros [|z c] E' L; cbn in *; try lia.
    - injection E' as -> ->. eauto.
    - injection E' as -> E'. destruct (IH c E') as (x & ->); [lia|]. eauto. }
  destruct X as (x & ->). exists a, x, d. rewrite E', <- app_assoc. reflexivity.
Qed.
Lemma try_roots_some sorted l roots out : try_roots sorted l roots = Some out ->
  exists r, In r roots /\ out = first_of_name [] (sorted r l) /\ existsb (contradicts (map i_name out)) l = false.
Proof.
  induction roots as [|r t IH]; cbn [try_roots]; [discriminate|]. cbv zeta. destruct (existsb (contradicts (map i_name (first_of_name [] (sorted r l)))) l) eqn:E.
  - intro H. destruct (IH H) as (r' & I & Q). exists r'. split; [now right|exact Q].
  - intros [= <-]. exists r. split; [now left|]. split; [reflexivity|exact E].
Qed.
Lemma sort_ok sorted roots l out : (forall r, Permutation (sorted r l) l) -> sort_hierarchy sorted roots l = Some out ->
  NoDup (map i_name out) /\ (forall n, In n (map i_name out) <-> exists x, In x l /\ i_name x = n) /\ incl out l
  /\ (forall x, In x l -> In (i_parent x) (map i_name out) -> i_name x <> i_parent x -> ahead (i_name x) (i_parent x) (map i_name out)).
Proof.
  intros P H. destruct l as [|x0 l0].
  { cbn in H. injection H as <-. split; [constructor|]. split; [intro n; cbn; split; [intros []|intros (? & [] & _)]|]. split; [intros ? []|intros ? []]. }
  remember (x0 :: l0) as l. assert (H' : try_roots sorted l roots = Some out) by (subst l; exact H). clear Heql x0 l0 H.
  destruct (try_roots_some _ _ _ _ H') as (r & _ & E & C). destruct (first_of_name_spec (sorted r l) []) as (D & Q & I). rewrite <- E in *.
  assert (N : forall n, In n (map i_name out) <-> exists x, In x l /\ i_name x = n).
  { intro n. rewrite Q, in_map_iff. split.
    - intros [(x & Ex & Ix) _]. exists x. split; [now apply (Permutation_in _ (P r))|exact Ex].
    - intros (x & Ix & Ex). split; [|intros []]. exists x. split; [exact Ex|]. apply (Permutation_in _ (Permutation_sym (P r))). exact Ix. }
  split; [exact D|]. split; [exact N|]. split.
  - intros x Hx. apply (Permutation_in _ (P r)). now apply I.
  - intros x Ix Ip Ne. destruct (position_In _ _ Ip) as (p & Pp).
    assert (In_ : In (i_name x) (map i_name out)) by (apply N; eauto). destruct (position_In _ _ In_) as (k & Pk).
    assert (F : contradicts (map i_name out) x = false).
    { destruct (contradicts (map i_name out) x) eqn:F; [|reflexivity]. assert (existsb (contradicts (map i_name out)) l = true) by (apply existsb_exists; eauto). congruence. }
    unfold contradicts in F. rewrite Pp, Pk in F. apply Nat.ltb_ge in F.
    apply (position_ahead _ _ _ k p Pk Pp). destruct (Nat.eq_dec k p) as [->|]; [|lia]. exfalso.
    destruct (position_split _ _ _ Pp) as (a & b & Ea & La & _). destruct (position_split _ _ _ Pk) as (c & d & Ec & Lc & _).
    rewrite Ea in Ec. subst p. assert (X : nth_error (a ++ i_parent x :: b) (List.length a) = nth_error (c ++ i_name x :: d) (List.length a)) by now rewrite Ec.
    rewrite nth_error_app2, Nat.sub_diag in X by lia. rewrite nth_error_app2, <- Lc, Nat.sub_diag in X by lia. cbn in X. congruence.
Qed.

Lemma all_res_ok {A B} (f : A -> res B) l r : all_res f l = Ok r -> Forall2 (fun x y => f x = Ok y) l r.
Proof.
  revert r. induction l as [|x l IH]; intros r; cbn; [intros [= <-]; constructor|].
  destruct (f x) as [y| |] eqn:E; try discriminate. destruct (all_res f l) as [q| |]; try discriminate. intros [= <-]. constructor; [exact E|auto].
Qed.
Lemma numbered_snd {A} (l : list A) : forall k, map snd (numbered k l) = l.
Proof. induction l as [|x l IH]; intro k; cbn; [reflexivity|]. now rewrite IH. Qed.
Lemma libs_of_In n raw : In n (libs_of raw) <-> In (ILib n) raw.
Proof.
  unfold libs_of. rewrite uniq_In, in_flat_map. split.
  - intros (i & I & J). destruct i; cbn in J; [destruct J as [->|[]]; exact I|destruct J|destruct J].
  - intro I. exists (ILib n). split; [exact I|now left].
Qed.
Lemma own_In parent libs x : In x (map (fun kn => mkInc parent (snd kn) (fst kn)) (numbered 0 libs)) -> i_parent x = parent /\ In (i_name x) libs.
Proof.
  intro H. apply in_map_iff in H as ([k n] & <- & I). cbn. split; [reflexivity|]. rewrite <- (numbered_snd libs 0). apply in_map_iff. now exists (k, n).
Qed.
Lemma own_has parent libs n : In n libs -> exists x, In x (map (fun kn => mkInc parent (snd kn) (fst kn)) (numbered 0 libs)) /\ i_parent x = parent /\ i_name x = n.
Proof.
  intro H. rewrite <- (numbered_snd libs 0) in H. apply in_map_iff in H as ([k m] & E & I). cbn in E. subst m.
  exists (mkInc parent n k). split; [|split; reflexivity]. apply in_map_iff. now exists (k, n).
Qed.
(** a set of includes that answers all requests of [raw] in the name of [parent] *)
Definition closed (fs : files) (l : list inc) : Prop :=
  forall x, In x l -> exists t, fs (i_name x ++ ".h")%string = Some t /\ forall m, In (ILib m) t -> exists y, In y l /\ i_parent y = i_name x /\ i_name y = m.
(** a library needed by the text [raw] *)
Inductive needs (fs : files) (raw : list item) : string -> Prop :=
| needs_here n : In (ILib n) raw -> needs fs raw n
| needs_more m t n : needs fs raw m -> fs (m ++ ".h")%string = Some t -> In (ILib n) t -> needs fs raw n.
Lemma needs_from fs raw t m n : needs fs raw m -> fs (m ++ ".h")%string = Some t -> needs fs t n -> needs fs raw n.
Proof. intros A B C. induction C as [n I|m' t' n C IH E I]; [exact (needs_more fs raw m t n A B I)|exact (needs_more fs raw m' t' n IH E I)]. Qed.
Lemma handle_spec fs fuel : forall parent raw l c, handle fs fuel parent raw = Ok (l, c) ->
  closed fs l /\ (forall n, In (ILib n) raw -> exists x, In x l /\ i_parent x = parent /\ i_name x = n)
  /\ (forall x, In x l -> needs fs raw (i_name x) /\ ((i_parent x = parent /\ In (ILib (i_name x)) raw)
        \/ exists t, fs (i_parent x ++ ".h")%string = Some t /\ In (ILib (i_name x)) t)).
Proof.
  induction fuel as [|fuel IH]; intros parent raw l c H; cbn [handle] in H; [discriminate|].
  match type of H with match all_res ?F _ with _ => _ end = _ => set (f := F) in H end.
  destruct (all_res f (libs_of raw)) as [found| |] eqn:E; try discriminate.
  destruct (inline fs fuel (erase raw)) as [c0| |]; try discriminate. injection H as <- <-. apply all_res_ok in E.
  set (own := map (fun kn => mkInc parent (snd kn) (fst kn)) (numbered 0 (libs_of raw))).
  assert (G : forall n lf, f n = Ok lf -> exists t c, fs (n ++ ".h")%string = Some t /\ handle fs fuel n t = Ok (lf, c)).
  { intros n lf. unfold f. destruct (fs (n ++ ".h")%string) as [t|]; [|discriminate]. destruct (handle fs fuel n t) as [[l1 c1]| |] eqn:Ht; try discriminate.
    intros [= <-]. eauto. }
  assert (In_found : forall x, In x (List.concat found) -> exists n lf, In n (libs_of raw) /\ In lf found /\ f n = Ok lf /\ In x lf).
  { clear - E. induction E as [|n lf ns ls Hn E IH]; cbn; [intros ? []|]. intros x Hx. apply in_app_or in Hx as [Hx|Hx].
    - exists n, lf. cbn. tauto.
    - destruct (IH x Hx) as (n' & lf' & A & B & C & D). exists n', lf'. cbn. tauto. }
  assert (Has : forall n, In n (libs_of raw) -> exists lf, In lf found /\ f n = Ok lf).
  { clear - E. induction E as [|n lf ns ls Hn E IH]; [intros ? []|]. intros m [<-|Hm]; [exists lf; cbn; tauto|]. destruct (IH m Hm) as (q & A & B). exists q. cbn. tauto. }
  split; [|split].
  - intros x Hx. rewrite uniq_In in Hx. apply in_app_or in Hx as [Hx|Hx].
    + apply own_In in Hx as [_ Hx]. destruct (Has _ Hx) as (lf & Ilf & Hf). destruct (G _ _ Hf) as (t & c1 & T & Ht).
      exists t. split; [exact T|]. intros m Im. destruct (IH _ _ _ _ Ht) as (_ & A & _). destruct (A m Im) as (y & Iy & Py & Ny).
      exists y. split; [|auto]. rewrite uniq_In. apply in_or_app. right. apply in_concat. eauto.
    + destruct (In_found x Hx) as (n & lf & In_ & Ilf & Hf & Ix). destruct (G _ _ Hf) as (t & c1 & T & Ht). destruct (IH _ _ _ _ Ht) as (A & _).
      destruct (A x Ix) as (t' & T' & Q). exists t'. split; [exact T'|]. intros m Im. destruct (Q m Im) as (y & Iy & Py & Ny).
      exists y. split; [|auto]. rewrite uniq_In. apply in_or_app. right. apply in_concat. eauto.
  - intros n Hn. apply libs_of_In in Hn. destruct (own_has parent _ n Hn) as (x & Ix & Px & Nx). exists x. rewrite uniq_In. split; [apply in_or_app; now left|auto].
  - intros x Hx. rewrite uniq_In in Hx. apply in_app_or in Hx as [Hx|Hx].
    + apply own_In in Hx as [Px Nx]. apply libs_of_In in Nx. split; [now apply needs_here|auto].
    + destruct (In_found x Hx) as (n & lf & In_ & Ilf & Hf & Ix). destruct (G _ _ Hf) as (t & c1 & T & Ht). destruct (IH _ _ _ _ Ht) as (_ & _ & Q).
      destruct (Q x Ix) as [Nd O]. apply libs_of_In in In_. split; [exact (needs_from fs raw t n _ (needs_here fs raw n In_) T Nd)|].
      right. destruct O as [[Px Nx]|O]; [|exact O]. exists t. rewrite Px. auto.
Qed.
Lemma collect_spec fs fuel : forall blocks l, collect fs fuel blocks = Ok l ->
  closed fs l /\ (forall p raw n, In (p, raw) blocks -> In (ILib n) raw -> exists x, In x l /\ i_parent x = p /\ i_name x = n)
  /\ (forall x, In x l -> (exists p raw, In (p, raw) blocks /\ needs fs raw (i_name x))
        /\ ((exists raw, In (i_parent x, raw) blocks /\ In (ILib (i_name x)) raw) \/ exists t, fs (i_parent x ++ ".h")%string = Some t /\ In (ILib (i_name x)) t)).
Proof.
  induction blocks as [|[p raw] blocks IH]; intros l H; cbn [collect] in H.
  - injection H as <-. split; [intros ? []|]. split; [intros ? ? ? []|intros ? []].
  - destruct (handle fs fuel p raw) as [[l1 c1]| |] eqn:H1; try discriminate; destruct (collect fs fuel blocks) as [l2| |] eqn:H2; try discriminate.
    injection H as <-. apply handle_spec in H1 as (C1 & A1 & B1). destruct (IH l2 eq_refl) as (C2 & A2 & B2). split; [|split].
    + intros x Hx. rewrite uniq_In in Hx. apply in_app_or in Hx as [Hx|Hx].
      * destruct (C1 x Hx) as (t & T & Q). exists t. split; [exact T|]. intros m Hm. destruct (Q m Hm) as (y & Iy & E). exists y. rewrite uniq_In. split; [apply in_or_app; now left|exact E].
      * destruct (C2 x Hx) as (t & T & Q). exists t. split; [exact T|]. intros m Hm. destruct (Q m Hm) as (y & Iy & E). exists y. rewrite uniq_In. split; [apply in_or_app; now right|exact E].
    + intros q r n [[= <- <-]|Hb] Hn.
      * destruct (A1 n Hn) as (x & Ix & E). exists x. rewrite uniq_In. split; [apply in_or_app; now left|exact E].
      * destruct (A2 q r n Hb Hn) as (x & Ix & E). exists x. rewrite uniq_In. split; [apply in_or_app; now right|exact E].
    + intros x Hx. rewrite uniq_In in Hx. apply in_app_or in Hx as [Hx|Hx].
      * destruct (B1 x Hx) as [Nd O]. split; [exists p, raw; split; [now left|exact Nd]|]. destruct O as [[Px Nx]|O]; [left; exists raw; rewrite Px; split; [now left|exact Nx]|now right].
      * destruct (B2 x Hx) as [(q & r & Ib & Nd) O]. split; [exists q, r; split; [now right|exact Nd]|]. destruct O as [(r' & Ib' & N')|O]; [left; exists r'; split; [now right|exact N']|now right].
Qed.
