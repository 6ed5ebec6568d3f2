(** Variables declared in C blocks and the members of the parameter structure of a component made from them.

    DeclaresCVisitor, translators/c_listener.py:212-363: visitDeclaration, visitDeclarator, visitDirectDeclarator;
    CDeclarator.as_struct_member, CFuncPointer.as_struct_member and extract_initializer_size, c_listener.py:94-96, 171-209;
    the lines of the structure, translators/c_decls.py:179.

    Simplifications.  The input is the parse tree (grammar/C.g4:293-309) with the texts of its leaves and the blanks between them; what a
    specifier, a size, a list of arguments or an initialiser looks like inside is not modelled, they are texts.  int() is modelled for
    decimal digits surrounded by blanks. *)
From Coq Require Import List String Ascii Bool NArith ZArith Arith Lia DecimalString DecimalNat.
From Verif Require Import PyStr UserVars.
Import ListNotations.
Local Open Scope string_scope.
Local Open Scope list_scope.
Local Open Scope nat_scope.

(** declarator and directDeclarator, grammar/C.g4:293-309.  A gap is the white space in front of the next token. *)
Inductive declarator := Dtor (pointer : option string) (gap : string) (d : direct) (extensions : list string)
with direct :=
| DName (n : string)
| DBrackets (modifier : option string) (d : declarator)
| DArray (d : direct) (gap size : string)
| DCall (d : direct) (gap arguments : string).
(** literal_string: the text of the source, c_listener.py:10-18 *)
Fixpoint dtor_text (d : declarator) : string :=
  match d with Dtor p g d e => ((match p with Some p => p ++ g | None => "" end) ++ direct_text d ++ String.concat "" (map (fun x => " " ++ x) e))%string end
with direct_text (d : direct) : string :=
  match d with
  | DName n => n
  | DBrackets m d => ("(" ++ (match m with Some m => m ++ " " | None => "" end) ++ dtor_text d ++ ")")%string
  | DArray d g s => (direct_text d ++ g ++ "[" ++ s ++ "]")%string
  | DCall d g a => (direct_text d ++ g ++ "(" ++ a ++ ")")%string
  end.

(** s.replace(p, empty text), p not empty *)
Fixpoint remove (fuel : nat) (p s : string) : string :=
  match fuel with
  | O => s
  | S f => match s with
           | EmptyString => ""
           | String c r => if startswith p s then remove f p (substring (String.length p) (String.length s) s) else String c (remove f p r)
           end
  end.
(** s.strip of the two brackets *)
Definition bracket (c : ascii) : bool := Ascii.eqb c "(" || Ascii.eqb c ")".
(** str.strip with a set of characters, the front *)
Fixpoint ltrim (f : ascii -> bool) (s : string) : string := match s with EmptyString => "" | String c r => if f c then ltrim f r else s end.
(** str.strip with a set of characters, the end *)
Fixpoint rtrim (f : ascii -> bool) (s : string) : string :=
  match s with EmptyString => "" | String c r => match rtrim f r with EmptyString => if f c then "" else String c "" | r => String c r end end.
(** str.strip with a set of characters *)
Definition trim (f : ascii -> bool) (s : string) : string := rtrim f (ltrim f s).

(** int(n) for decimal text *)
Definition py_int (s : string) : option Z := match NilZero.uint_of_string (strip s) with Some d => Some (Z.of_nat (Nat.of_uint d)) | None => None end.
(** str of an integer *)
Definition str_size (z : Z) : string := if (z <? 0)%Z then ("-" ++ str_nat (Z.to_nat (- z)))%string else str_nat (Z.to_nat z).
(** visitDeclarator, c_listener.py:331-337: the texts between the brackets *)
Fixpoint sizes_of (fuel : nat) (post : string) : list string :=
  match fuel with
  | O => []
  | S f => match split_once "]" post with
           | None => []
           | Some (num, post) => num :: sizes_of f (match split_once "[" post with Some (_, r) => r | None => post end)
           end
  end.
(** a list comprehension in which every item may raise *)
Fixpoint all_some {A} (l : list (option A)) : option (list A) := match l with [] => Some [] | Some a :: l => match all_some l with Some r => Some (a :: r) | None => None end | None :: _ => None end.
(** c_listener.py:338-342 *)
Definition elements_of (nums : list string) : elems :=
  match all_some (map (fun n => if n =?s "" then Some 0%Z else py_int n) nums) with Some l => Ints l | None => Texts nums end.
(** a CDeclarator without pointer, qualifiers, type and initialiser, c_listener.py:50-60 *)
Definition no_quals : quals := mkQ None [] None None None.

(** the result of visitDirectDeclarator: a text or a CFuncPointer *)
Inductive visited := VText (s : string) | VFun (d : decl) (modifiers args : option string).
(** c_listener.py:321-343 and 349-363 *)
Fixpoint visit_dtor (d : declarator) : decl :=
  match d with
  | Dtor p g d e =>
      match visit_direct d with
      | VFun f m a => Fun f m a (mkQ p e None None None)
      | VText s => match split_once "[" s with
                   | Some (n, post) => if has_char "]" s then Plain n (mkQ p e (Some (elements_of (sizes_of (S (String.length post)) post))) None None) else Plain s (mkQ p e None None None)
                   | None => Plain s (mkQ p e None None None)
                   end
      end
  end
with visit_direct (d : direct) : visited :=
  match d with
  | DName n => VText n
  | DBrackets m d => VFun (visit_dtor d) m None
  | DArray d' _ _ | DCall d' _ _ =>
      let after := remove (String.length (direct_text d)) (direct_text d') (direct_text d) in
      match visit_direct d' with VFun f m _ => VFun f m (Some (trim bracket after)) | VText s => VText (s ++ after)%string end
  end.

(** the type and initialiser given by visitDeclaration, c_listener.py:226-256 *)
Definition set_type (t : string) (i : option string) (d : decl) : decl :=
  match d with
  | Plain n q => Plain n (mkQ (q_pointer q) (q_ext q) (q_elements q) (Some t) i)
  | Fun f m a q => Fun f m a (mkQ (q_pointer q) (q_ext q) (q_elements q) (Some t) i)
  end.
(** visitDeclaration, c_listener.py:226-256: specifiers, and declarators with the texts of their initialisers; a name without initialiser
    and without commas is read by the parser as one more specifier *)
Definition declaration_of (specs : list string) (inits : list (declarator * option string)) : list decl :=
  if existsb (String.eqb "typedef") specs then []
  else match inits with
       | [] => if 1 <? List.length specs then [Plain (List.last specs "") (mkQ None [] None (Some (join " " (removelast specs))) None)] else []
       | _ => map (fun p => set_type (join " " specs) (snd p) (visit_dtor (fst p))) inits
       end.

(** ** Sizes from initialisers *)
(** the regular expression of c_listener.py:204: the texts in braces without braces inside, and what is left when an underscore replaces them *)
Fixpoint inner (cur : option string) (s : string) : list string * string :=
  match s with
  | EmptyString => ([], match cur with None => "" | Some a => String "{" a end)
  | String c r =>
      match cur with
      | None => if Ascii.eqb c "{" then inner (Some "") r else let '(m, o) := inner None r in (m, String c o)
      | Some a => if Ascii.eqb c "}" then let '(m, o) := inner None r in (a :: m, String "_" o)
                  else if Ascii.eqb c "{" then let '(m, o) := inner (Some "") r in (m, (String "{" a ++ o)%string)
                  else inner (Some (a ++ String c "")%string) r
      end
  end.
(** c_listener.py:205-208 *)
Fixpoint rounds (fuel : nat) (x : string) : list nat :=
  match fuel with
  | O => []
  | S f => match inner None x with ([], _) => [] | (y :: _, o) => List.length (split_char "," y) :: rounds f o end
  end.
(** extract_initializer_size, c_listener.py:191-209 *)
Definition initializer_size (s : string) : list nat := rev (rounds (S (String.length s)) s).

(** ** The member of the structure *)
Inductive size := SInt (z : Z) | SText (s : string).
(** str of a size, c_listener.py:94-96 *)
Definition size_str (x : size) : string := match x with SInt z => str_size z | SText s => s end.
(** the elements of a CDeclarator, c_listener.py:94-96 *)
Definition sizes (e : elems) : list size := match e with Ints l => map SInt l | Texts l => map SText l end.
(** a size of zero stands for an omitted one, c_listener.py:171-209 *)
Definition omitted (x : size) : bool := match x with SInt z => (z =? 0)%Z | SText _ => false end.
(** a list times a number *)
Fixpoint repeated {A} (n : nat) (l : list A) : list A := match n with O => [] | S n => l ++ repeated n l end.
(** the omitted sizes are replaced, c_listener.py:94-96 *)
Fixpoint fill (no mal : list size) : list size := match no, mal with x :: no, m :: mal => (if omitted x then m else x) :: fill no mal | _, _ => [] end.
(** the sizes of a member as text, c_listener.py:94-96 *)
Definition brackets (l : list size) : string := String.concat "" (map (fun x => ("[" ++ size_str x ++ "]")%string) l).
(** as_struct_member, c_listener.py:94-96, 171-188; no result when it divides by zero *)
Fixpoint as_member (mal : list size) (d : decl) : option string :=
  let q := match d with Plain _ q | Fun _ _ _ q => q end in
  let mal := if nonempty (q_init q) then map (fun n => SInt (Z.of_nat n)) (initializer_size (opt (q_init q))) else mal in
  let es := match q_elements q with Some e => sizes e | None => [] end in
  let dims := List.length es in
  let mal := if List.length mal <? dims then if List.length mal =? 0 then None else Some (repeated (dims / List.length mal) mal) else Some mal in
  match mal with
  | None => None
  | Some mal =>
      let no := match es with [] => mal | _ => es end in
      match d with
      | Fun f m a q => match as_member no f with Some s => Some (d_string q (f_string m a s)) | None => None end
      | Plain n q => match q_elements q with
                     | Some _ => Some (d_string q n ++ brackets (if existsb omitted no then fill no mal else no))%string
                     | None => Some (d_string q n)
                     end
      end
  end.
(** the size for an array without size and initialiser, c_listener.py:171 *)
Definition largest : Z := 16384%Z.
(** translators/c_decls.py:179 *)
Definition member (d : decl) : option string := as_member [SInt largest] d.
(** translators/c_decls.py:179: one line each *)
Definition private_lines (l : list decl) : option (list string) := all_some (map (fun d => option_map (fun s => ("  " ++ s ++ ";")%string) (member d)) l).

(** * Facts *)
(** ** Removing a text *)
Lemma substring_all s : forall m, String.length s <= m -> substring 0 m s = s.
Proof. induction s as [|c s IH]; intros m H; destruct m as [|m]; cbn in *; try reflexivity; try lia. now rewrite IH by lia. Qed.
Lemma substring_skip p : forall r m, String.length r <= m -> substring (String.length p) m (p ++ r) = r.
Proof. induction p as [|c p IH]; intros r m H; cbn; [now apply substring_all|now apply IH]. Qed.
Lemma remove_none p : forall f s, contains p s = false -> remove f p s = s.
Proof.
  induction f as [|f IH]; intros s H; [reflexivity|]. destruct s as [|c r]; [reflexivity|]. cbn [remove]. cbn [contains] in H. apply orb_false_iff in H as [H1 H2]. rewrite H1. now rewrite IH.
Qed.
Lemma remove_first p r f : p <> "" -> contains p r = false -> remove (S f) p (p ++ r) = r.
Proof.
  intros N H. cbn [remove]. destruct (p ++ r)%string as [|c t] eqn:E; [destruct p; [congruence|discriminate]|]. rewrite <- E.
  assert (X : startswith p (p ++ r) = true) by (apply startswith_spec; eauto). rewrite X. rewrite substring_skip by (rewrite string_app_length; lia). now apply remove_none.
Qed.
(** ** Characters *)
Fixpoint every (f : ascii -> bool) (s : string) : bool := match s with EmptyString => true | String c r => f c && every f r end.
Lemma every_app f a b : every f (a ++ b) = every f a && every f b.
Proof. induction a as [|c a IH]; [reflexivity|]. cbn. rewrite IH. now rewrite andb_assoc. Qed.
Lemma every_not f c s : every f s = true -> f c = false -> has_char c s = false.
Proof.
  induction s as [|x s IH]; [reflexivity|]. cbn. rewrite andb_true_iff. intros [A B] C. rewrite IH by assumption. destruct (Ascii.eqb_spec x c) as [->|]; [congruence|reflexivity].
Qed.
Lemma has_char_split c s : has_char c s = true -> exists a b, s = (a ++ String c b)%string /\ has_char c a = false.
Proof.
  intro H. destruct (split_once c s) as [[a b]|] eqn:E; [apply split_once_some in E; eauto|]. apply split_once_none in E. congruence.
Qed.
Lemma split_at c a b : has_char c a = false -> split_once c (a ++ String c b) = Some (a, b).
Proof. intro H. apply split_once_some. auto. Qed.
Lemma split_unique c a b a' b' : has_char c a = false -> has_char c a' = false -> (a ++ String c b)%string = (a' ++ String c b')%string -> a = a' /\ b = b'.
Proof. intros A A' E. apply (split_at c a b) in A. apply (split_at c a' b') in A'. rewrite E in A. rewrite A in A'. injection A' as -> ->. auto. Qed.

(** ** Arrays *)
Definition piece (p : string * string) : string := (fst p ++ "[" ++ snd p ++ "]")%string.
(** specification: the tree of an array declarator *)
Definition array_of (n : string) (l : list (string * string)) : direct := fold_left (fun d p => DArray d (fst p) (snd p)) l (DName n).
(** specification: the text of the sizes *)
Definition pieces (l : list (string * string)) : string := String.concat "" (map piece l).
Lemma concat_cons x l : String.concat "" (x :: l) = (x ++ String.concat "" l)%string.
Proof. destruct l; cbn; [now rewrite string_app_nil_r|reflexivity]. Qed.
Lemma pieces_cons p l : pieces (p :: l) = (piece p ++ pieces l)%string.
Proof. apply concat_cons. Qed.
Lemma pieces_app a b : pieces (a ++ b) = (pieces a ++ pieces b)%string.
Proof. induction a as [|p a IH]; [reflexivity|]. cbn [app]. rewrite !pieces_cons, IH. now rewrite string_app_assoc. Qed.
Lemma array_text n l : direct_text (array_of n l) = (n ++ pieces l)%string.
Proof.
  induction l as [|p l IH] using rev_ind; [cbn; now rewrite string_app_nil_r|]. unfold array_of. rewrite fold_left_app. cbn [fold_left direct_text]. fold (array_of n l). rewrite IH.
  rewrite pieces_app. unfold pieces at 2. cbn [map String.concat]. unfold piece. rewrite !string_app_assoc. reflexivity.
Qed.
(** specification: a character of an identifier *)
Definition word_char (c : ascii) : bool :=
  let n := nat_of_ascii c in ((48 <=? n) && (n <=? 57)) || ((65 <=? n) && (n <=? 90)) || ((97 <=? n) && (n <=? 122)) || (n =? 95).
(** a size without brackets *)
Definition unbracketed (s : string) : bool := every (fun c => negb (Ascii.eqb c "[" || Ascii.eqb c "]")) s.
(** specification: blanks *)
Definition gap_ok (g : string) : bool := every is_space g.
(** specification: an identifier *)
Definition word (n : string) : Prop := n <> "" /\ every word_char n = true.
Lemma word_not c n : word n -> word_char c = false -> has_char c n = false.
Proof. intros [_ W] H. now apply (every_not word_char). Qed.
Lemma gap_not c g : gap_ok g = true -> is_space c = false -> has_char c g = false.
Proof. intros W H. now apply (every_not is_space). Qed.
Lemma size_not s : unbracketed s = true -> has_char "[" s = false /\ has_char "]" s = false.
Proof. intro H. split; (eapply every_not; [exact H|reflexivity]). Qed.
Lemma startswith_sep c b : forall n a, has_char c n = false -> startswith n (a ++ String c b) = startswith n a.
Proof.
  induction n as [|x n IH]; intros a H; [reflexivity|]. cbn [has_char] in H. apply orb_false_iff in H as [H1 H2]. destruct a as [|y a]; cbn; [now rewrite H1|]. now rewrite IH.
Qed.
Lemma contains_sep c n b : n <> "" -> has_char c n = false -> forall a, contains n (a ++ String c b) = contains n a || contains n b.
Proof.
  intros N H. induction a as [|y a IH].
  - cbn [append]. cbn [contains]. destruct n as [|x n]; [congruence|]. cbn [has_char] in H. apply orb_false_iff in H as [H1 H2]. cbn [startswith]. now rewrite H1.
  - cbn [append contains]. rewrite IH. change (String y (a ++ String c b))%string with (String y a ++ String c b)%string. rewrite startswith_sep by assumption. now rewrite orb_assoc.
Qed.
Lemma word_not_space c : word_char c = true -> is_space c = false.
Proof.
  intros H. unfold word_char in H. unfold is_space. set (k := nat_of_ascii c) in *.
  rewrite !orb_true_iff, !andb_true_iff, !Nat.leb_le, Nat.eqb_eq in H. rewrite !orb_false_iff, !andb_false_iff, !Nat.leb_gt, Nat.eqb_neq. lia.
Qed.
Lemma gap_contains n g : (exists c r, n = String c r /\ is_space c = false) -> gap_ok g = true -> contains n g = false.
Proof.
  intros (c & r & -> & C) G. destruct (contains (String c r) g) eqn:E; [|reflexivity]. apply contains_spec in E as (a & b & ->). unfold gap_ok in G. rewrite !every_app in G. cbn [every] in G.
  rewrite C in G. now rewrite andb_false_r in G.
Qed.
Lemma word_start n : word n -> exists c r, n = String c r /\ is_space c = false.
Proof. intros [N W]. destruct n as [|c r]; [congruence|]. exists c, r. split; [reflexivity|]. cbn in W. apply andb_true_iff in W as [W _]. now apply word_not_space. Qed.
Lemma word_contains n g s : word n -> gap_ok g = true -> contains n s = false -> contains n (g ++ "[" ++ s ++ "]") = false.
Proof.
  intros W G C. change ("[" ++ s ++ "]")%string with (String "[" (s ++ String "]" "")). rewrite !contains_sep by (try exact (proj1 W); now apply word_not).
  rewrite gap_contains by (auto using word_start). rewrite C. cbn [contains orb]. destruct (word_start n W) as (c & r & -> & _). reflexivity.
Qed.
(** a text that contains an opening bracket is not part of what follows *)
Lemma longer_contains n x g s : word n -> has_char "[" x = true -> gap_ok g = true -> unbracketed s = true -> contains (n ++ x) (g ++ "[" ++ s ++ "]") = false.
Proof.
  intros W X G U. destruct (contains (n ++ x) (g ++ "[" ++ s ++ "]")) eqn:E; [|reflexivity]. exfalso. apply contains_spec in E as (a & b & E).
  apply has_char_split in X as (x1 & x2 & -> & X1). change ("[" ++ s ++ "]")%string with (String "[" (s ++ "]")) in E. apply size_not in U as [U _].
  destruct (has_char "[" a) eqn:A.
  - apply has_char_split in A as (a1 & a2 & -> & A1). rewrite !string_app_assoc in E. apply split_unique in E as [_ E]; [|now apply gap_not|assumption].
    assert (T : has_char "[" (s ++ "]") = false) by (rewrite has_char_app, U; reflexivity). rewrite E in T. rewrite !has_char_app in T. cbn in T. rewrite !orb_true_r in T. discriminate.
  - assert (E2 : (g ++ String "[" (s ++ "]"))%string = ((a ++ n ++ x1) ++ String "[" (x2 ++ b))%string) by (rewrite E, !string_app_assoc; reflexivity).
    apply split_unique in E2 as [E2 _]; [|now apply gap_not|now rewrite !has_char_app, A, (word_not _ n), X1]. destruct (word_start n W) as (c & r & -> & C). subst g.
    unfold gap_ok in G. rewrite !every_app in G. cbn [every] in G. rewrite C in G. now rewrite andb_false_r in G.
Qed.
(** specification: sizes that are read as they are written *)
Definition good_dims (n : string) (l : list (string * string)) : Prop :=
  Forall (fun p => gap_ok (fst p) = true /\ unbracketed (snd p) = true) l /\ match l with [] => True | p :: _ => contains n (snd p) = false end.
Lemma array_visit n l : word n -> good_dims n l -> visit_direct (array_of n l) = VText (n ++ pieces l).
Proof.
  intro W. induction l as [|p l IH] using rev_ind; intros [F H]; [cbn; now rewrite string_app_nil_r|]. apply Forall_app in F as [F Fp]. apply Forall_inv in Fp. destruct Fp as [Fg Fs].
  assert (G : good_dims n l) by (split; [exact F|destruct l; [exact Logic.I|exact H]]). specialize (IH G).
  unfold array_of. rewrite fold_left_app. cbn [fold_left visit_direct]. fold (array_of n l). rewrite IH. f_equal.
  cbn [direct_text]. rewrite array_text. set (t := (n ++ pieces l)%string). set (r := (fst p ++ "[" ++ snd p ++ "]")%string).
  assert (Nt : t <> "") by (destruct W as [N _]; destruct n; [congruence|discriminate]).
  assert (L : exists k, String.length (t ++ r) = S k) by (rewrite string_app_length; destruct t; [congruence|cbn; eauto]). destruct L as [k ->].
  rewrite remove_first; [|exact Nt|].
  - unfold t. rewrite pieces_app. unfold pieces at 3. cbn [map String.concat]. now rewrite !string_app_assoc.
  - unfold t, r. destruct l as [|q l]; [unfold pieces; cbn [map String.concat]; rewrite string_app_nil_r; apply word_contains; auto|].
    apply longer_contains; auto. rewrite pieces_cons. unfold piece. rewrite !has_char_app. cbn. now rewrite !orb_true_r.
Qed.
Lemma sizes_pieces l : Forall (fun p => gap_ok (fst p) = true /\ unbracketed (snd p) = true) l -> forall s f, unbracketed s = true -> List.length l < f ->
  sizes_of f (s ++ "]" ++ pieces l) = s :: map snd l.
Proof.
  induction 1 as [|p l [Hg Hs] Hl IH]; intros s f U L; (destruct f as [|f]; [cbn in L; lia|]); cbn [sizes_of]; change ("]" ++ ?x)%string with (String "]" x); rewrite split_at by (now apply size_not).
  - cbn. destruct f; reflexivity.
  - rewrite pieces_cons. unfold piece. rewrite !string_app_assoc. change ("[" ++ ?x)%string with (String "[" x). rewrite split_at by (now apply gap_not). cbn [map]. f_equal. apply IH; [exact Hs|cbn in L; lia].
Qed.
Lemma pieces_length l : List.length l <= String.length (pieces l).
Proof. induction l as [|p l IH]; [cbn; lia|]. rewrite pieces_cons, string_app_length. unfold piece. rewrite !string_app_length. cbn. lia. Qed.
Lemma dtor_array p g n q l e : word n -> good_dims n (q :: l) -> visit_dtor (Dtor p g (array_of n (q :: l)) e) = Plain (n ++ fst q) (mkQ p e (Some (elements_of (map snd (q :: l)))) None None).
Proof.
  intros W G. cbn [visit_dtor]. rewrite array_visit by assumption. destruct G as [F C]. assert (F' := F). apply Forall_inv in F' as [Hg Hs]. apply Forall_inv_tail in F.
  rewrite pieces_cons. unfold piece.
  assert (E : (n ++ (fst q ++ "[" ++ snd q ++ "]") ++ pieces l)%string = ((n ++ fst q) ++ String "[" (snd q ++ "]" ++ pieces l))%string) by (rewrite !string_app_assoc; reflexivity). rewrite E.
  rewrite split_at by (rewrite has_char_app, (word_not _ n), gap_not; auto).
  assert (X : has_char "]" ((n ++ fst q) ++ String "[" (snd q ++ "]" ++ pieces l)) = true) by (rewrite !has_char_app; cbn; rewrite has_char_app; cbn; now rewrite !orb_true_r). rewrite X.
  rewrite (sizes_pieces l); [reflexivity|exact F|exact Hs|]. rewrite !string_app_length. cbn. pose proof (pieces_length l). lia.
Qed.

(** ** Initialisers *)
Inductive init := Item (s : string) | Braces (before after : string) (l : list init).
Section InitInd.
  Variable P : init -> Prop.
  Hypothesis HI : forall s, P (Item s).
  Hypothesis HB : forall b a l, Forall P l -> P (Braces b a l).
  (** proof helper: induction over initialisers *)
  Fixpoint init_ind' (t : init) : P t :=
    match t with Item s => HI s | Braces b a l => HB b a l ((fix go l : Forall P l := match l with [] => Forall_nil P | t :: l => Forall_cons t (init_ind' t) (go l) end) l) end.
End InitInd.
(** specification: the text of an initialiser *)
Fixpoint text (t : init) : string := match t with Item s => s | Braces b a l => (b ++ "{" ++ join "," (map text l) ++ "}" ++ a)%string end.
(** specification: an item without braces and commas *)
Definition simple (s : string) : bool := every (fun c => negb (Ascii.eqb c "{" || Ascii.eqb c "}" || Ascii.eqb c ",")) s.
(** specification: every brace has items, no trailing comma *)
Fixpoint proper (t : init) : bool := match t with Item s => simple s | Braces b a l => simple b && simple a && match l with [] => false | _ => forallb proper l end end.
(** specification: the depth of braces *)
Fixpoint depth (t : init) : nat := match t with Item _ => 0 | Braces _ _ l => S (list_max (map depth l)) end.
(** specification: no braces *)
Definition is_item (t : init) : bool := match t with Item _ => true | Braces _ _ _ => false end.
(** specification: one round of extract_initializer_size, c_listener.py:171-209 *)
Fixpoint reduce (t : init) : init :=
  match t with Item s => Item s | Braces b a l => if forallb is_item l then Item (b ++ "_" ++ a) else Braces b a (map reduce l) end.
(** specification: the innermost lists of one round *)
Fixpoint found (t : init) : list string :=
  match t with Item _ => [] | Braces _ _ l => if forallb is_item l then [join "," (map text l)] else flat_map found l end.
Lemma simple_not s : simple s = true -> has_char "{" s = false /\ has_char "}" s = false /\ has_char "," s = false.
Proof. intro H. repeat split; (eapply every_not; [exact H|reflexivity]). Qed.
Lemma inner_none s : has_char "{" s = false -> forall r, inner None (s ++ r) = let '(m, o) := inner None r in (m, (s ++ o)%string).
Proof.
  induction s as [|c s IH]; intros H r; cbn [append]; [now destruct (inner None r)|]. cbn [has_char] in H. apply orb_false_iff in H as [H1 H2]. cbn [inner]. rewrite H1, IH by assumption.
  now destruct (inner None r).
Qed.
Lemma inner_some s : has_char "{" s = false -> has_char "}" s = false -> forall a r, inner (Some a) (s ++ r) = inner (Some (a ++ s)%string) r.
Proof.
  induction s as [|c s IH]; intros H H' a r; cbn [append]; [now rewrite string_app_nil_r|]. cbn [has_char] in H, H'. apply orb_false_iff in H as [H1 H2]. apply orb_false_iff in H' as [H1' H2'].
  cbn [inner]. rewrite H1, H1', IH by assumption. now rewrite string_app_assoc.
Qed.
(** specification: one more match *)
Definition then_ (ms : list string) (x : string) (p : list string * string) : list string * string := let '(m, o) := p in (ms ++ m, (x ++ o)%string).
Lemma then_then m x m' x' p : then_ m x (then_ m' x' p) = then_ (m ++ m') (x ++ x') p.
Proof. destruct p as [n o]. cbn. now rewrite app_assoc, string_app_assoc. Qed.
Lemma inner_opened t a r : is_item t = false -> proper t = true -> inner (Some a) (text t ++ r) = then_ [] (String "{" a) (inner None (text t ++ r)).
Proof.
  destruct t as [|b e l]; [discriminate|]. intros _ P. cbn [proper] in P. apply andb_true_iff in P as [P _]. apply andb_true_iff in P as [B _]. apply simple_not in B as (B1 & B2 & _).
  cbn [text]. rewrite !string_app_assoc. rewrite inner_some, inner_none by assumption. cbn [append]. cbn [inner]. rewrite (Ascii.eqb_refl "{"). change (Ascii.eqb "{" "}") with false. cbv iota.
  destruct (inner (Some "") _) as [m o]. cbn. now rewrite !string_app_assoc.
Qed.
Lemma join_cons sep x l : l <> [] -> join sep (x :: l) = (x ++ sep ++ join sep l)%string.
Proof. destruct l; [congruence|reflexivity]. Qed.
Lemma join_items l : forallb is_item l = true -> forallb proper l = true -> has_char "{" (join "," (map text l)) = false /\ has_char "}" (join "," (map text l)) = false.
Proof.
  induction l as [|t l IH]; [now split|]. cbn [forallb map]. rewrite !andb_true_iff. intros [I Il] [P Pl]. destruct t as [s|]; [|discriminate]. cbn [proper] in P. apply simple_not in P as (A & B & _).
  destruct (IH Il Pl) as [C D]. destruct l as [|u l]; [now split|]. rewrite join_cons by discriminate. cbn [text]. rewrite !has_char_app, A, B. cbn [orb]. split; [exact C|exact D].
Qed.
Lemma round t : proper t = true -> forall r, inner None (text t ++ r) = then_ (found t) (text (reduce t)) (inner None r).
Proof.
  induction t as [s|b e l IH] using init_ind'; intros P r; cbn [text found reduce].
  - apply simple_not in P as (A & _ & _). now apply inner_none.
  - cbn [proper] in P. apply andb_true_iff in P as [P Pl]. apply andb_true_iff in P as [Pb Pe]. assert (Nl : l <> []) by (destruct l; discriminate || congruence).
    assert (Pl' : forallb proper l = true) by (destruct l; [discriminate|exact Pl]). clear Pl. apply simple_not in Pb as (B1 & B2 & _). apply simple_not in Pe as (E1 & E2 & _).
    rewrite !string_app_assoc. rewrite inner_none by assumption. cbn [append inner]. rewrite (Ascii.eqb_refl "{"). change (Ascii.eqb "{" "}") with false. cbv iota.
    (* the list outside of an open pair *)
    assert (Out : forall l, l <> [] -> Forall (fun t => proper t = true -> forall r, inner None (text t ++ r) = then_ (found t) (text (reduce t)) (inner None r)) l -> forallb proper l = true ->
      forall r, inner None (join "," (map text l) ++ r) = then_ (flat_map found l) (join "," (map text (map reduce l))) (inner None r)).
    { clear. induction l as [|t l IHl]; intros N F P r; [congruence|]. cbn [forallb] in P. apply andb_true_iff in P as [Pt Pl]. assert (Ht := Forall_inv F Pt). apply Forall_inv_tail in F.
      destruct l as [|u l]; [cbn [map join flat_map]; rewrite app_nil_r; apply Ht|]. cbn [map]. rewrite !join_cons by discriminate. rewrite !string_app_assoc. rewrite Ht. cbn [append].
      cbn [inner]. change (Ascii.eqb "," "{") with false. cbv iota. change (text u :: map text l) with (map text (u :: l)). rewrite IHl by (assumption || discriminate).
      destruct (inner None r) as [m o]. cbn [then_ flat_map map]. rewrite (join_cons "," (text (reduce t))) by discriminate. cbn [append]. rewrite ?app_assoc, ?string_app_assoc. reflexivity. }
    assert (In_ : forall l a, l <> [] -> Forall (fun t => proper t = true -> forall r, inner None (text t ++ r) = then_ (found t) (text (reduce t)) (inner None r)) l -> forallb proper l = true -> forallb is_item l = false ->
      forall r, inner (Some a) (join "," (map text l) ++ r) = then_ (flat_map found l) (String "{" a ++ join "," (map text (map reduce l))) (inner None r)).
    { clear - Out. induction l as [|t l IHl]; intros a N F P I r; [congruence|]. assert (P0 := P). assert (F0 := F). cbn [forallb] in P. apply andb_true_iff in P as [Pt Pl]. apply Forall_inv_tail in F.
      destruct (is_item t) eqn:It.
      - destruct t as [s|]; [|discriminate]. cbn [forallb is_item andb] in I. destruct l as [|u l]; [discriminate|]. cbn [map]. rewrite !join_cons by discriminate. cbn [text reduce]. rewrite !string_app_assoc.
        cbn [proper] in Pt. apply simple_not in Pt as (S1 & S2 & _). rewrite inner_some by assumption. cbn [append inner]. change (Ascii.eqb "," "}") with false. change (Ascii.eqb "," "{") with false. cbv iota.
        change (text u :: map text l) with (map text (u :: l)). rewrite IHl by (assumption || discriminate). destruct (inner None r) as [m o]. cbn. now rewrite !string_app_assoc.
      - assert (E : inner (Some a) (join "," (map text (t :: l)) ++ r) = then_ [] (String "{" a) (inner None (join "," (map text (t :: l)) ++ r))).
        { destruct l as [|u l]; [cbn [map join]; now apply inner_opened|]. cbn [map]. rewrite join_cons by discriminate. rewrite !string_app_assoc. now apply inner_opened. }
        rewrite E. rewrite Out by (assumption || discriminate). now rewrite then_then. }
    destruct (forallb is_item l) eqn:I.
    + destruct (join_items l I Pl') as [J1 J2]. rewrite inner_some by assumption. cbn [append inner]. rewrite (Ascii.eqb_refl "}"). rewrite inner_none by assumption.
      destruct (inner None r) as [m o]. cbn [then_ text]. rewrite !string_app_assoc. reflexivity.
    + rewrite In_ by assumption. cbn [append inner]. change (Ascii.eqb "}" "{") with false. cbv iota. rewrite inner_none by assumption. destruct (inner None r) as [m o]. cbn [then_ text append].
      rewrite ?string_app_assoc. cbn [append]. rewrite ?string_app_assoc. reflexivity.
Qed.
Lemma round0 t : proper t = true -> inner None (text t) = (found t, text (reduce t)).
Proof. intro P. rewrite <- (string_app_nil_r (text t)). rewrite round by assumption. cbn. now rewrite app_nil_r, string_app_nil_r. Qed.
Lemma proper_reduce t : proper t = true -> proper (reduce t) = true.
Proof.
  induction t as [s|b e l IH] using init_ind'; intro P; [exact P|]. cbn [proper reduce] in *. apply andb_true_iff in P as [P Pl]. assert (P' := P). apply andb_true_iff in P as [Pb Pe].
  destruct (forallb is_item l); cbn [proper].
  - unfold simple in *. rewrite !every_app, Pb, Pe. reflexivity.
  - rewrite P'. destruct l as [|t l]; [discriminate|]. cbn [map andb]. change (forallb proper (map reduce (t :: l)) = true). assert (Pl' : forallb proper (t :: l) = true) by exact Pl.
    rewrite forallb_forall in *. intros x Hx. apply in_map_iff in Hx as (y & <- & Hy). rewrite Forall_forall in IH. auto.
Qed.
Lemma found_none t : depth t = 0 -> found t = [].
Proof. destruct t; [reflexivity|discriminate]. Qed.
Lemma items_depth l : forallb is_item l = true <-> list_max (map depth l) = 0.
Proof.
  induction l as [|t l IH]; [now split|]. cbn [forallb map list_max fold_right]. rewrite andb_true_iff, IH. unfold list_max. destruct t; cbn [is_item depth]; split; intuition (try discriminate; try lia).
Qed.
Lemma found_some t : 0 < depth t -> found t <> [].
Proof.
  induction t as [s|b e l IH] using init_ind'; intro D; [cbn in D; lia|]. cbn [found]. destruct (forallb is_item l) eqn:I; [discriminate|].
  assert (X : exists t, In t l /\ 0 < depth t).
  { clear - I. induction l as [|t l IHl]; [discriminate|]. cbn [forallb] in I. destruct t as [s|b a l']; cbn [is_item andb] in I; [destruct (IHl I) as (t & T & D); exists t; split; [now right|exact D]|].
    exists (Braces b a l'). split; [now left|cbn; lia]. }
  destruct X as (t & T & Dt). rewrite Forall_forall in IH. specialize (IH t T Dt). intro E. apply IH. destruct (found t) as [|y ys] eqn:Ft; [reflexivity|]. exfalso.
  assert (Y : In y (flat_map found l)) by (apply in_flat_map; exists t; split; [exact T|rewrite Ft; now left]). rewrite E in Y. destruct Y.
Qed.
Lemma depth_reduce t : depth (reduce t) = pred (depth t).
Proof.
  induction t as [s|b e l IH] using init_ind'; [reflexivity|]. cbn [reduce depth pred]. destruct (forallb is_item l) eqn:I; [apply items_depth in I; now rewrite I|].
  cbn [depth]. assert (N : list_max (map depth l) <> 0) by (intro X; apply items_depth in X; congruence).
  assert (M : list_max (map depth (map reduce l)) = pred (list_max (map depth l))).
  { clear - IH. induction IH as [|t l Ht Hl IHl]; [reflexivity|]. cbn [map list_max fold_right]. fold (list_max (map depth l)). fold (list_max (map depth (map reduce l))). rewrite Ht, IHl. lia. }
  rewrite M. lia.
Qed.
(** specification: the number of items *)
Definition width (t : init) : nat := match t with Item _ => 0 | Braces _ _ l => List.length l end.
Lemma commas l : l <> [] -> forallb is_item l = true -> forallb proper l = true -> List.length (split_char "," (join "," (map text l))) = List.length l.
Proof.
  intros N I P. rewrite split_char_join; [now rewrite map_length|destruct l; [congruence|discriminate]|]. rewrite forallb_forall in *. apply Forall_forall. intros x Hx. apply in_map_iff in Hx as (t & <- & Ht).
  specialize (I t Ht). specialize (P t Ht). destruct t; [|discriminate]. cbn in P. now apply simple_not in P.
Qed.
Lemma rounds_spec : forall k f t, proper t = true -> depth t = k -> k < f -> exists l, rounds f (text t) = l /\ List.length l = k /\ (0 < k -> exists l', l = l' ++ [width t]).
Proof.
  induction k as [|k IH]; intros f t P D L; (destruct f as [|f]; [lia|]); cbn [rounds]; rewrite round0 by assumption.
  - rewrite found_none by assumption. exists []. repeat split. lia.
  - assert (F := found_some t ltac:(lia)). destruct (found t) as [|y ys] eqn:Ft; [congruence|]. assert (D' : depth (reduce t) = k) by (rewrite depth_reduce, D; reflexivity).
    destruct (IH f (reduce t) (proper_reduce t P) D' ltac:(lia)) as (l & -> & Ll & W). eexists. split; [reflexivity|]. split; [cbn; lia|]. intros _.
    destruct k as [|k].
    + destruct l; [|discriminate]. exists []. cbn [app]. f_equal. destruct t as [s|b e l]; [discriminate|]. cbn [found] in Ft. cbn [proper] in P. apply andb_true_iff in P as [_ P].
      cbn [depth] in D. injection D as D. apply items_depth in D. rewrite D in Ft. injection Ft as <- <-. cbn [width]. destruct l; [discriminate|]. apply commas; [discriminate|exact D|exact P].
    + destruct (W ltac:(lia)) as (l' & ->). exists (List.length (split_char "," y) :: l'). cbn [app]. f_equal. f_equal. f_equal. destruct t as [s|b e l]; [discriminate|]. cbn [reduce].
      cbn [depth] in D. assert (I : forallb is_item l = false) by (destruct (forallb is_item l) eqn:I; [apply items_depth in I; lia|reflexivity]). rewrite I. cbn [width]. now rewrite map_length.
Qed.
Lemma depth_length t : depth t <= String.length (text t).
Proof.
  induction t as [s|b e l IH] using init_ind'; [cbn; lia|]. cbn [depth text]. rewrite !string_app_length. cbn [String.length].
  assert (M : list_max (map depth l) <= String.length (join "," (map text l))).
  { induction IH as [|t l Ht Hl IHl]; [cbn; lia|]. cbn [map list_max fold_right]. fold (list_max (map depth l)). destruct l as [|u l]; [cbn in *; lia|].
    cbn [map] in *. rewrite join_cons by discriminate. rewrite !string_app_length. cbn [String.length]. lia. }
  lia.
Qed.
(** the number of items of the outermost braces comes first, and there are as many numbers as levels *)
Lemma size_of_initialiser t : proper t = true -> is_item t = false -> exists l, initializer_size (text t) = width t :: l /\ List.length (width t :: l) = depth t.
Proof.
  intros P I. destruct (rounds_spec (depth t) (S (String.length (text t))) t P eq_refl) as (l & E & L & W); [pose proof (depth_length t); lia|].
  destruct W as [l' ->]; [destruct t; [discriminate|cbn; lia]|]. exists (rev l'). unfold initializer_size. rewrite E, rev_app_distr. cbn [rev app]. split; [reflexivity|].
  rewrite app_length in L. cbn in *. rewrite rev_length. lia.
Qed.
