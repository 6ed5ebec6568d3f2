(** Property C59: variables declared in the DECLARE section of a component type and the members of its parameter structure. *)
From Coq Require Import List String Ascii Bool NArith ZArith Arith Lia DecimalString DecimalNat.
From Verif Require Import PyStr UserVars Declares.
Import ListNotations.
Local Open Scope string_scope.
Local Open Scope list_scope.
Local Open Scope nat_scope.

(** * Specification: the variables a C declaration declares *)
(** type, stars, name, sizes; or a pointer to a function: type, stars, inner stars, name, arguments *)
Inductive variable := Var (base : string) (stars : option string) (name : string) (dims : list string) | FunVar (base : string) (stars : option string) (inner name args : string).
Definition starred (p : option string) : string := match p with Some p => (p ++ " ")%string | None => "" end.
Definition boxed (l : list string) : string := String.concat "" (map (fun d => ("[" ++ d ++ "]")%string) l).
(** its declaration in C *)
Definition c_text (v : variable) : string :=
  match v with
  | Var b p n ds => (b ++ " " ++ starred p ++ n ++ boxed ds)%string
  | FunVar b p s n a => (b ++ " " ++ starred p ++ "(" ++ s ++ " " ++ n ++ ")(" ++ a ++ ")")%string
  end.
(** identifiers, blanks *)
Definition letter (c : ascii) : bool := let n := nat_of_ascii c in ((48 <=? n) && (n <=? 57)) || ((65 <=? n) && (n <=? 90)) || ((97 <=? n) && (n <=? 122)) || (n =? 95).
Fixpoint all_of (f : ascii -> bool) (s : string) : bool := match s with EmptyString => true | String c r => f c && all_of f r end.
Definition identifier (n : string) : Prop := n <> "" /\ all_of letter n = true.
Definition blank (g : string) : Prop := all_of is_space g = true.
(** a decimal number that is not zero, without leading zeros, blanks around it *)
Definition number (s : string) (k : nat) : Prop := strip s = str_nat k /\ 0 < k.
(** a size with a character other than digits, blanks, signs and underscores *)
Definition digit (c : ascii) : bool := (48 <=? nat_of_ascii c) && (nat_of_ascii c <=? 57).
Definition symbolic (s : string) : Prop := exists c, has_char c s = true /\ is_space c = false /\ digit c = false /\ c <> "+"%char /\ c <> "-"%char /\ c <> "_"%char.
(** initialisers: no comma or brace is inside an item, no list is empty *)
Definition no_signs (s : string) : Prop := has_char "{" s = false /\ has_char "}" s = false /\ has_char "," s = false.
Fixpoint braced (t : init) : Prop :=
  match t with Item s => no_signs s | Braces b a l => no_signs b /\ no_signs a /\ l <> [] /\ fold_right (fun t P => braced t /\ P) True l end.
(** lists nested at least [k] deep in every place, without designators and without a comma at the end: the number of elements is the number of items *)
Definition item_ok (t : init) : Prop := braced t /\ match t with Item s | Braces s _ _ => startswith "[" (strip s) = false end /\ match t with Item s => strip s <> "" | _ => True end.
Fixpoint listing (k : nat) (l : list init) : Prop :=
  match k with
  | O => True
  | S k' => l <> [] /\ Forall (fun t => item_ok t /\ match t with Item _ => k' = 0 | Braces _ _ m => listing k' m end) l
  end.
(** the sizes of an array: no blank between the name and the first one, the name does not occur in the first one *)
Definition sizes_ok (n : string) (l : list (string * string)) : Prop :=
  match l with
  | [] => False
  | (g, s) :: r => g = "" /\ contains n s = false /\ Forall (fun p => blank (fst p)) r /\ Forall (fun p => has_char "[" (snd p) = false /\ has_char "]" (snd p) = false) l
  end.
Definition initialised (i : option string) : Prop := match i with None => True | Some s => exists b a l, braced (Braces b a l) /\ s = text (Braces b a l) end.
(** arguments that do not start or end with a round bracket *)
Definition round_bracket (c : ascii) : Prop := c = "("%char \/ c = ")"%char.
Definition ends_ok (a : string) : Prop := a = "" \/ (exists c r, a = String c r /\ ~ round_bracket c) /\ (exists c r, a = (r ++ String c "")%string /\ ~ round_bracket c).
(** one declarator with its initialiser, after the type [base] *)
Inductive item_means (base : string) : declarator * option string -> variable -> Prop :=
| m_plain p g n i : identifier n -> p <> Some "" -> item_means base (Dtor p g (DName n) [], i) (Var base p n [])
| m_numbers p g n l i ks : identifier n -> p <> Some "" -> sizes_ok n l -> initialised i -> Forall2 number (map snd l) ks ->
    item_means base (Dtor p g (array_of n l) [], i) (Var base p n (map str_nat ks))
| m_symbols p g n l i : identifier n -> p <> Some "" -> sizes_ok n l -> initialised i -> Exists symbolic (map snd l) -> Forall (fun s => strip s <> "") (map snd l) ->
    item_means base (Dtor p g (array_of n l) [], i) (Var base p n (map snd l))
| m_counted p g n l b a m ks : identifier n -> p <> Some "" -> sizes_ok n (("", "") :: l) -> no_signs b -> no_signs a -> Forall2 number (map snd l) ks -> listing (S (List.length l)) m ->
    item_means base (Dtor p g (array_of n (("", "") :: l)) [], Some (text (Braces b a m))) (Var base p n (map str_nat (List.length m :: ks)))
| m_function p g s g' n a i : identifier n -> p <> Some "" -> s <> "" -> ends_ok a -> contains ("(" ++ s ++ g' ++ n ++ ")") ("(" ++ a ++ ")") = false ->
    item_means base (Dtor p g (DCall (DBrackets None (Dtor (Some s) g' (DName n) [])) "" a) [], i) (FunVar base p s n a).
(** a declaration; [s_]: a storage class is not part of the type *)
Definition storage : list string := ["typedef"; "extern"; "static"; "_Thread_local"; "auto"; "register"].
Definition a_type (specs : list string) : Prop := join " " specs <> "" /\ Forall (fun s => ~ In s storage) specs.
Inductive means : list string * list (declarator * option string) -> list variable -> Prop :=
| d_name specs n : a_type specs -> identifier n -> n <> "typedef" -> means (specs ++ [n], []) [Var (join " " specs) None n []]
| d_list specs l vs : a_type specs -> l <> [] -> Forall2 (item_means (join " " specs)) l vs -> means (specs, l) vs
| d_type s : means ([s], []) []
| d_typedef specs l : In "typedef" specs -> means (specs, l) [].

(** * Lemmas *)
Lemma all_of_every f s : all_of f s = every f s.
Proof. induction s as [|c s IH]; [reflexivity|]. cbn. now rewrite IH. Qed.
Lemma identifier_word n : identifier n -> word n.
Proof. intros [N H]. split; [exact N|]. rewrite all_of_every in H. exact H. Qed.
Lemma no_signs_simple s : no_signs s -> simple s = true.
Proof.
  unfold simple. induction s as [|c s IH]; intros (A & B & C); [reflexivity|]. cbn [has_char] in A, B, C. apply orb_false_iff in A as [A A'], B as [B B'], C as [C C']. cbn [every].
  rewrite IH by (repeat split; assumption). rewrite A, B, C. reflexivity.
Qed.
Lemma fold_braced (l : list init) : fold_right (fun t P => braced t /\ P) True l <-> Forall braced l.
Proof. induction l as [|t l IH]; cbn; [split; auto|]. rewrite IH. split; [intros [A B]; auto|intro F; split; [exact (Forall_inv F)|exact (Forall_inv_tail F)]]. Qed.
Lemma braced_proper t : braced t -> proper t = true.
Proof.
  induction t as [s|b a l IH] using init_ind'; cbn [braced proper]; [apply no_signs_simple|]. intros (B & A & N & F). rewrite (no_signs_simple _ B), (no_signs_simple _ A). cbn [andb].
  destruct l as [|t l]; [congruence|]. apply fold_braced in F. apply forallb_forall. intros x Hx. rewrite Forall_forall in IH, F. auto.
Qed.
Lemma number_int s k : number s k -> s <> "" /\ py_int s = Some (Z.of_nat k).
Proof.
  intros [E K]. assert (N : Nat.to_uint k <> Decimal.Nil) by (intro X; pose proof (Unsigned.of_to k) as Y; rewrite X in Y; cbn in Y; lia).
  split; [intros ->; cbn in E; unfold str_nat in E; apply (f_equal NilZero.uint_of_string) in E; rewrite NilZero.usu in E by exact N; discriminate|].
  unfold py_int. rewrite E. unfold str_nat. rewrite NilZero.usu by exact N. now rewrite Unsigned.of_to.
Qed.
Lemma ints_of l ks : Forall2 number l ks -> all_some (map (fun n => if n =?s "" then Some 0%Z else py_int n) l) = Some (map Z.of_nat ks).
Proof.
  induction 1 as [|s k l ks H F IH]; [reflexivity|]. apply number_int in H as [N H]. cbn [map all_some]. apply String.eqb_neq in N. rewrite N, H, IH. reflexivity.
Qed.
Lemma lstrip_has c s : is_space c = false -> has_char c s = true -> has_char c (lstrip s) = true.
Proof.
  intro C. induction s as [|x s IH]; intro H; [discriminate|]. cbn [lstrip]. destruct (is_space x) eqn:X; [|exact H]. cbn [has_char] in H. apply orb_true_iff in H as [H|H]; [apply Ascii.eqb_eq in H; congruence|auto].
Qed.
Lemma rstrip_has c s : is_space c = false -> has_char c s = true -> has_char c (rstrip s) = true.
Proof.
  intro C. induction s as [|x s IH]; intro H; [discriminate|]. cbn [rstrip]. cbn [has_char] in H. apply orb_true_iff in H as [H|H].
  - apply Ascii.eqb_eq in H. subst x. destruct (rstrip s) as [|y r]; [rewrite C|]; cbn [has_char]; now rewrite Ascii.eqb_refl.
  - specialize (IH H). destruct (rstrip s) as [|y r]; [discriminate|]. cbn [has_char] in *. now rewrite IH, orb_true_r.
Qed.
Lemma uint_digits s : forall d, NilEmpty.uint_of_string s = Some d -> forall c, has_char c s = true -> digit c = true.
Proof.
  induction s as [|x s IH]; intros d E c H; [discriminate|]. cbn [NilEmpty.uint_of_string] in E.
  destruct (NilEmpty.uint_of_string s) as [e|] eqn:Es; [|destruct x as [[] [] [] [] [] [] [] []]; discriminate].
  cbn [has_char] in H. apply orb_true_iff in H as [H|H]; [|exact (IH e eq_refl c H)]. apply Ascii.eqb_eq in H. subst x. clear IH. destruct c as [[] [] [] [] [] [] [] []]; try reflexivity; discriminate.
Qed.
Lemma symbolic_int s : symbolic s -> s <> "" /\ py_int s = None.
Proof.
  intros (c & H & S & D & _). split; [intros ->; discriminate|]. unfold py_int. destruct (NilZero.uint_of_string (strip s)) as [d|] eqn:E; [|reflexivity]. exfalso.
  assert (X : has_char c (strip s) = true) by (apply rstrip_has; [exact S|now apply lstrip_has]). destruct (strip s) as [|x r] eqn:Es; [discriminate|].
  assert (E' : NilEmpty.uint_of_string (String x r) = Some d) by exact E. pose proof (uint_digits _ _ E' c X). congruence.
Qed.
Lemma texts_of l : Exists symbolic l -> all_some (map (fun n => if n =?s "" then Some 0%Z else py_int n) l) = None.
Proof.
  induction 1 as [s l H|s l H IH]; cbn [map all_some].
  - apply symbolic_int in H as [N H]. apply String.eqb_neq in N. now rewrite N, H.
  - rewrite IH. destruct (if s =?s "" then Some 0%Z else py_int s); reflexivity.
Qed.
Lemma sizes_good n l : sizes_ok n l -> l <> [] /\ good_dims n l /\ match l with [] => True | q :: _ => fst q = "" end.
Proof.
  destruct l as [|[g s] l]; [intros []|]. intros (-> & C & G & F). split; [discriminate|]. split; [|reflexivity]. split; [|exact C].
  assert (U : forall x, has_char "[" x = false /\ has_char "]" x = false -> unbracketed x = true).
  { unfold unbracketed. induction x as [|c x IH]; intros [A B]; [reflexivity|]. cbn [has_char] in A, B. apply orb_false_iff in A as [A A'], B as [B B']. cbn [every]. rewrite A, B, IH by (now split). reflexivity. }
  constructor; [split; [reflexivity|apply U; exact (Forall_inv F)]|]. apply Forall_inv_tail in F. rewrite Forall_forall in *. intros p Hp. split; [|apply U, (F p Hp)].
  specialize (G p Hp). unfold blank in G. now rewrite all_of_every in G.
Qed.
Lemma array_visited p g n l : identifier n -> sizes_ok n l -> visit_dtor (Dtor p g (array_of n l) []) = Plain n (mkQ p [] (Some (elements_of (map snd l))) None None).
Proof.
  intros W S. apply sizes_good in S as (N & G & E). destruct l as [|q l]; [congruence|]. rewrite dtor_array by (auto using identifier_word). now rewrite E, string_app_nil_r.
Qed.
Lemma str_size_nat k : str_size (Z.of_nat k) = str_nat k.
Proof. unfold str_size. destruct (Z.ltb_spec (Z.of_nat k) 0); [lia|]. now rewrite Nat2Z.id. Qed.
Lemma brackets_boxed l : brackets l = boxed (map size_str l).
Proof. unfold brackets, boxed. now rewrite map_map. Qed.
Lemma d_string_text base p n : base <> "" -> p <> Some "" -> forall e i, d_string (mkQ p [] e (Some base) i) n = (base ++ " " ++ starred p ++ n)%string.
Proof.
  intros B P e i. unfold d_string. cbn [q_ext q_pointer q_dtype join]. cbn [opt]. change ("" =?s "") with true. cbv iota. assert (Nb : nonempty (Some base) = true) by (destruct base; [congruence|reflexivity]). rewrite Nb.
  destruct p as [p|]; cbn [starred opt]; [|reflexivity]. assert (Np : nonempty (Some p) = true) by (destruct p; [congruence|reflexivity]). rewrite Np. now rewrite !string_app_assoc.
Qed.
(** sizes that are given are kept *)
Lemma initial_nonempty i : initialised i -> nonempty i = true -> initializer_size (opt i) <> [].
Proof.
  destruct i as [s|]; [|discriminate]. intros (b & a & l & B & ->) _. destruct (size_of_initialiser (Braces b a l) (braced_proper _ B) eq_refl) as (r & E & _). cbn [opt]. rewrite E. discriminate.
Qed.
Lemma member_given n p e base i : initialised i -> sizes e <> [] -> existsb omitted (sizes e) = false -> 
  member (Plain n (mkQ p [] (Some e) (Some base) i)) = Some (d_string (mkQ p [] (Some e) (Some base) i) n ++ boxed (map size_str (sizes e)))%string.
Proof.
  intros I N O. unfold member. cbn [as_member q_elements q_init]. set (mal := if nonempty i then _ else _).
  assert (M : mal <> []) by (unfold mal; destruct (nonempty i) eqn:X; [|discriminate]; intro Y; apply map_eq_nil in Y; exact (initial_nonempty i I X Y)).
  assert (L : (List.length mal =? 0) = false) by (destruct mal; [congruence|reflexivity]). rewrite L. rewrite <- brackets_boxed.
  destruct (List.length mal <? List.length (sizes e)); (destruct (sizes e) as [|x r]; [congruence|]); rewrite O; reflexivity.
Qed.
Lemma listing_facts : forall k l, listing k l -> 0 < k -> l <> [] /\ forallb proper l = true /\ k <= S (list_max (map depth l)).
Proof.
  induction k as [|k IH]; intros l H K; [lia|]. destruct H as [N F]. split; [exact N|]. split.
  - apply forallb_forall. intros t T. rewrite Forall_forall in F. destruct (F t T) as [[B _] _]. now apply braced_proper.
  - destruct k as [|k]; [lia|]. destruct l as [|t l]; [congruence|]. apply Forall_inv in F. destruct F as [_ F]. destruct t as [s|b a m]; [discriminate|]. destruct (IH m F ltac:(lia)) as (_ & _ & D).
    cbn [map list_max fold_right depth]. lia.
Qed.
Lemma fill_counted ks : forall mal, List.length ks <= List.length mal -> Forall (fun k => 0 < k) ks -> fill (map SInt (map Z.of_nat ks)) mal = map SInt (map Z.of_nat ks).
Proof.
  induction ks as [|k ks IH]; intros mal L F; [reflexivity|]. destruct mal as [|m mal]; [cbn in L; lia|]. cbn [map fill omitted]. apply Forall_cons_iff in F as [K F].
  destruct (Z.eqb_spec (Z.of_nat k) 0); [lia|]. rewrite IH; [reflexivity|cbn in L; lia|exact F].
Qed.
Lemma number_pos l ks : Forall2 number l ks -> Forall (fun k => 0 < k) ks.
Proof. induction 1 as [|s k l ks [_ H] F IH]; constructor; assumption. Qed.
Lemma no_omitted ks : Forall (fun k => 0 < k) ks -> existsb omitted (map SInt (map Z.of_nat ks)) = false.
Proof. induction 1 as [|k ks K F IH]; [reflexivity|]. cbn [map existsb omitted]. rewrite IH. destruct (Z.eqb_spec (Z.of_nat k) 0); [lia|reflexivity]. Qed.
Lemma size_strs ks : map size_str (map SInt (map Z.of_nat ks)) = map str_nat ks.
Proof. rewrite !map_map. apply map_ext. intro k. apply str_size_nat. Qed.
(** brackets of the arguments *)
Lemma bracket_spec c : ~ round_bracket c -> bracket c = false.
Proof. intro H. unfold bracket. apply orb_false_iff. split; apply Ascii.eqb_neq; intros ->; apply H; [left|right]; reflexivity. Qed.
Lemma rtrim_keep f c r : f c = false -> forall t, rtrim f t = "" -> rtrim f (r ++ String c t) = (r ++ String c "")%string.
Proof.
  intros C t T. induction r as [|x r IH]; cbn [append rtrim]; [now rewrite T, C|]. rewrite IH. destruct r; reflexivity.
Qed.
Lemma trim_arguments a : ends_ok a -> trim bracket ("(" ++ a ++ ")") = a.
Proof.
  intros [->|[(c & r & E & C) (d & q & E2 & D)]]; [reflexivity|]. apply bracket_spec in C, D. unfold trim.
  assert (L : ltrim bracket ("(" ++ a ++ ")") = (a ++ ")")%string) by (rewrite E; cbn [append ltrim]; change (bracket "(") with true; cbv iota; now rewrite C). rewrite L.
  rewrite E2, string_app_assoc. cbn [append]. now rewrite (rtrim_keep bracket d q D).
Qed.
Lemma function_visited p g s g' n a : identifier n -> s <> "" -> ends_ok a -> contains ("(" ++ s ++ g' ++ n ++ ")") ("(" ++ a ++ ")") = false ->
  visit_dtor (Dtor p g (DCall (DBrackets None (Dtor (Some s) g' (DName n) [])) "" a) []) = Fun (Plain n (mkQ (Some s) [] None None None)) None (Some a) (mkQ p [] None None None).
Proof.
  intros W Hs A C. apply identifier_word in W. cbn [visit_dtor visit_direct].
  assert (Wn : has_char "[" n = false) by (now apply word_not). assert (Sp : split_once "[" n = None) by (apply split_once_none; exact Wn). rewrite Sp. cbv iota. cbn [direct_text dtor_text map String.concat].
  set (t := ("(" ++ s ++ g' ++ n ++ ")")%string) in *.
  assert (R : forall x, x = (t ++ ("(" ++ a ++ ")"))%string -> remove (String.length x) t x = ("(" ++ a ++ ")")%string).
  { intros x ->. assert (L : exists k, String.length (t ++ ("(" ++ a ++ ")")) = S k) by (unfold t; cbn; eauto). destruct L as [k L]. rewrite L. apply remove_first; [unfold t; discriminate|exact C]. }
  match goal with |- context [remove ?k ?q ?x] => assert (E : remove k q x = ("(" ++ a ++ ")")%string) end.
  { match goal with |- remove _ ?q ?x = _ => transitivity (remove (String.length x) t x); [apply (f_equal (fun z => remove (String.length x) z x))|apply R] end; unfold t;
    rewrite ?string_app_nil_r; cbn [append]; rewrite ?string_app_assoc; cbn [append]; rewrite ?string_app_assoc; reflexivity. }
  rewrite E.
  now rewrite trim_arguments.
Qed.

Lemma item_member base pi v : base <> "" -> item_means base pi v -> member (set_type base (snd pi) (visit_dtor (fst pi))) = Some (c_text v).
Proof.
  intros B H. inversion H as [p g n i W P|p g n l i ks W P Hs I F|p g n l i W P Hs I X F|p g n l b a m ks W P Hs Nb Na F Li|p g s g' n a i W P Hs A C]; subst; cbn [fst snd].
  - cbn [visit_dtor visit_direct]. assert (Sp : split_once "[" n = None) by (apply split_once_none, word_not; [now apply identifier_word|reflexivity]). rewrite Sp. cbn [set_type q_pointer q_ext q_elements].
    unfold member. cbn [as_member q_elements q_init List.length]. change (?x <? 0) with false. cbv iota. rewrite d_string_text by assumption. cbn [c_text boxed map String.concat]. now rewrite string_app_nil_r.
  - rewrite array_visited by assumption. cbn [set_type q_pointer q_ext q_elements]. assert (E : elements_of (map snd l) = Ints (map Z.of_nat ks)) by (unfold elements_of; now rewrite (ints_of _ _ F)). rewrite E.
    assert (Nk : ks <> []) by (destruct l as [|x l]; [destruct Hs|]; inversion F; discriminate).
    rewrite member_given; [|exact I|destruct ks; [congruence|discriminate]|apply no_omitted, (number_pos _ _ F)]. cbn [sizes]. rewrite size_strs, d_string_text by assumption. cbn [c_text]. now rewrite !string_app_assoc.
  - rewrite array_visited by assumption. cbn [set_type q_pointer q_ext q_elements]. assert (E : elements_of (map snd l) = Texts (map snd l)) by (unfold elements_of; now rewrite (texts_of _ X)). rewrite E.
    rewrite member_given; [|exact I|destruct l; [destruct Hs|discriminate]|cbn [sizes]; clear; induction l; [reflexivity|assumption]]. cbn [sizes]. rewrite d_string_text by assumption. cbn [c_text].
    rewrite map_map. cbn [size_str]. rewrite map_id. now rewrite !string_app_assoc.
  - rewrite array_visited by assumption. cbn [set_type q_pointer q_ext q_elements]. cbn [map snd].
    assert (E : elements_of ("" :: map snd l) = Ints (0%Z :: map Z.of_nat ks)) by (unfold elements_of; cbn [map all_some]; change ("" =?s "") with true; cbv iota; now rewrite (ints_of _ _ F)). rewrite E.
    destruct (listing_facts _ _ Li ltac:(lia)) as (Nm & Pm & D). assert (Pr : proper (Braces b a m) = true) by (cbn [proper]; rewrite !no_signs_simple by assumption; destruct m; [congruence|exact Pm]).
    destruct (size_of_initialiser (Braces b a m) Pr eq_refl) as (r & Er & Lr). cbn [width depth] in Er, Lr.
    unfold member. cbn [as_member q_elements q_init].
    assert (Ne : nonempty (Some (text (Braces b a m))) = true) by (cbn [text]; destruct b; reflexivity). rewrite Ne. cbn [opt]. rewrite Er. cbn [sizes]. rewrite !map_length. cbn [map]. cbn [List.length]. rewrite !map_length.
    assert (Lk : List.length ks = List.length l) by (rewrite <- (map_length snd l); symmetry; clear - F; induction F; cbn; congruence).
    destruct (Nat.ltb_spec (S (List.length r)) (S (List.length ks))) as [X|X]; [cbn in Lr; lia|]. cbn [existsb omitted]. change (0 =? 0)%Z with true. cbn [orb fill omitted]. change (0 =? 0)%Z with true. cbv iota.
    rewrite fill_counted; [|rewrite map_length; lia|exact (number_pos _ _ F)]. rewrite brackets_boxed. cbn [map size_str]. rewrite size_strs, str_size_nat, d_string_text by assumption. cbn [c_text]. now rewrite !string_app_assoc.
  - rewrite function_visited by assumption. cbn [set_type q_pointer q_ext q_elements]. unfold member. cbn [as_member q_elements q_init nonempty List.length]. change (?x <? 0) with false. cbv iota.
    rewrite d_string_text by assumption. cbn [c_text]. f_equal. f_equal. f_equal. f_equal. unfold f_string. cbn [nonempty]. unfold d_string at 1 2. cbn [q_ext q_pointer q_dtype join nonempty opt]. change ("" =?s "") with true. cbv iota.
    assert (Ns : match s with "" => false | String _ _ => true end = true) by (destruct s; [congruence|reflexivity]). rewrite Ns. destruct a as [|c a]; cbn [append]; rewrite ?string_app_assoc; reflexivity.
Qed.
Lemma no_typedef specs : Forall (fun s => ~ In s storage) specs -> existsb (String.eqb "typedef") specs = false.
Proof.
  induction 1 as [|s l H F IH]; [reflexivity|]. cbn [existsb]. rewrite IH, orb_false_r. apply String.eqb_neq. intros <-. apply H. now left.
Qed.
Lemma members_app a b x y : private_lines a = Some x -> private_lines b = Some y -> private_lines (a ++ b) = Some (x ++ y).
Proof.
  revert x. unfold private_lines. induction a as [|d a IH]; intros x A B; cbn [app map all_some] in *; [injection A as <-; exact B|].
  destruct (option_map _ (member d)) as [s|]; [|discriminate]. destruct (all_some (map _ a)) as [r|]; [|discriminate]. injection A as <-. rewrite (IH r eq_refl B). reflexivity.
Qed.
Lemma declaration_members specs l vs : means (specs, l) vs -> private_lines (declaration_of specs l) = Some (map (fun v => ("  " ++ c_text v ++ ";")%string) vs).
Proof.
  intro H. inversion H as [sp n [B T] W Nt E|sp l' vs' [B T] N F|s E|sp l' T]; subst; unfold declaration_of.
  - rewrite existsb_app, (no_typedef _ T). cbn [existsb]. assert (X : "typedef" =?s n = false) by (apply String.eqb_neq; congruence). rewrite X. cbn [orb]. rewrite app_length. cbn [List.length].
    destruct sp as [|s sp]; [contradiction B; reflexivity|]. destruct (Nat.ltb_spec 1 (List.length (s :: sp) + 1)) as [L|L]; [|cbn in L; lia].
    rewrite last_last, removelast_last. unfold private_lines. cbn [map all_some].
    pose proof (item_member (join " " (s :: sp)) (Dtor None "" (DName n) [], None) (Var (join " " (s :: sp)) None n []) B ltac:(apply m_plain; [exact W|discriminate])) as M. cbn [fst snd visit_dtor visit_direct] in M.
    assert (Sp : split_once "[" n = None) by (apply split_once_none, word_not; [now apply identifier_word|reflexivity]). rewrite Sp in M. cbn [set_type q_pointer q_ext q_elements] in M. rewrite M. reflexivity.
  - rewrite (no_typedef _ T). destruct l as [|x l]; [congruence|]. revert F. generalize (x :: l). clear - B. intros l F. unfold private_lines. rewrite map_map. induction F as [|pi v l vs H F IH]; [reflexivity|].
    cbn [map all_some]. rewrite (item_member _ _ _ B H). cbn [option_map]. rewrite IH. reflexivity.
  - cbn [existsb]. destruct ("typedef" =?s s); reflexivity.
  - assert (X : existsb (String.eqb "typedef") specs = true) by (apply existsb_exists; exists "typedef"; split; [exact T|reflexivity]). rewrite X. reflexivity.
Qed.

(** * The theorem *)
(** C59: one line for every variable, in the order of the declarations, with its type, name and sizes.  A size given as a number or in any
    other way is kept, an omitted first size is the number of items of the initialiser.  Partial: see the hypotheses of [means]; the refutations
    below show what happens without them. *)
Theorem C59_members_partial : forall sources vss, Forall2 means sources vss ->
  private_lines (flat_map (fun d => declaration_of (fst d) (snd d)) sources) = Some (map (fun v => ("  " ++ c_text v ++ ";")%string) (List.concat vss)).
Proof.
  induction 1 as [|[specs l] vs sources vss H F IH]; [reflexivity|]. cbn [flat_map List.concat fst snd]. rewrite map_app. apply members_app; [now apply declaration_members|exact IH].
Qed.
Print Assumptions C59_members_partial.
(** double x; const char *s = "abc"; int a[3], b[N][2 * N]; double m[][2] = {{1, 2}, {3, 4}, {5, 6}}; double ( *f)(double, int); typedef int T; *)
Definition items (l : list string) : init := Braces "" "" (map Item l).
Definition demo_sources : list (list string * list (declarator * option string)) :=
  [(["double"; "x"], []);
   (["const"; "char"], [(Dtor (Some "*") "" (DName "s") [], Some """abc""")]);
   (["int"], [(Dtor None "" (array_of "a" [("", "3")]) [], None); (Dtor None "" (array_of "b" [("", "N"); ("", "2 * N")]) [], None)]);
   (["double"], [(Dtor None "" (array_of "m" [("", ""); ("", "2")]) [], Some (text (Braces "" "" [items ["1"; " 2"]; Braces " " "" [Item "3"; Item " 4"]; Braces " " "" [Item "5"; Item " 6"]])))]);
   (["double"], [(Dtor None "" (DCall (DBrackets None (Dtor (Some "*") "" (DName "f") [])) "" "double, int") [], None)]);
   (["typedef"; "int"; "T"], [])].
Ltac spec := repeat split; try discriminate; try reflexivity; try (intros [->|[]]); auto.
Lemma identifier_b n : negb (n =?s "") && all_of letter n = true -> identifier n.
Proof. intro H. apply andb_true_iff in H as [A B]. split; [|exact B]. intros ->. discriminate. Qed.
Lemma a_type_b specs : negb (join " " specs =?s "") && forallb (fun s => negb (existsb (String.eqb s) storage)) specs = true -> a_type specs.
Proof.
  intro H. apply andb_true_iff in H as [A B]. split; [intro E; rewrite E in A; discriminate|]. rewrite forallb_forall in B. apply Forall_forall. intros s Hs X. specialize (B s Hs). apply negb_true_iff in B.
  assert (Y : existsb (String.eqb s) storage = true) by (apply existsb_exists; exists s; split; [exact X|apply String.eqb_refl]). congruence.
Qed.
Example demo_means : Forall2 means demo_sources
  [[Var "double" None "x" []]; [Var "const char" (Some "*") "s" []]; [Var "int" None "a" ["3"]; Var "int" None "b" ["N"; "2 * N"]]; [Var "double" None "m" ["3"; "2"]]; [FunVar "double" None "*" "f" "double, int"]; []].
Proof.
  repeat (apply Forall2_cons || apply Forall2_nil).
  - exact (d_name ["double"] "x" (a_type_b ["double"] eq_refl) (identifier_b "x" eq_refl) ltac:(discriminate)).
  - apply d_list; [now apply a_type_b|discriminate|]. constructor; [|constructor]. apply (m_plain _ (Some "*")); [now apply identifier_b|discriminate].
  - apply d_list; [now apply a_type_b|discriminate|]. constructor; [|constructor; [|constructor]].
    + apply (m_numbers _ None "" "a" [("", "3")] None [3]); [now apply identifier_b|discriminate| |exact Logic.I|].
      * split; [reflexivity|]. split; [reflexivity|]. split; constructor; [now split|constructor].
      * constructor; [split; [reflexivity|lia]|constructor].
    + apply (m_symbols _ None "" "b" [("", "N"); ("", "2 * N")] None); [now apply identifier_b|discriminate| |exact Logic.I| |].
      * split; [reflexivity|]. split; [reflexivity|]. split; [constructor; [reflexivity|constructor]|constructor; [now split|constructor; [now split|constructor]]].
      * constructor. exists "N"%char. repeat split; discriminate.
      * constructor; [discriminate|constructor; [discriminate|constructor]].
  - apply d_list; [now apply a_type_b|discriminate|]. constructor; [|constructor].
    apply (m_counted "double" None "" "m" [("", "2")] "" "" [items ["1"; " 2"]; Braces " " "" [Item "3"; Item " 4"]; Braces " " "" [Item "5"; Item " 6"]] [2]); [now apply identifier_b|discriminate| |now split|now split| |].
    + split; [reflexivity|]. split; [reflexivity|]. split; [constructor; [reflexivity|constructor]|constructor; [now split|constructor; [now split|constructor]]].
    + constructor; [split; [reflexivity|lia]|constructor].
    + cbn [List.length listing]. split; [discriminate|]. repeat (apply Forall_cons || apply Forall_nil); (split; [|cbn [items map]; split; [discriminate|]; repeat (apply Forall_cons || apply Forall_nil)]);
      try (split; [|reflexivity]); unfold item_ok, no_signs; cbn; repeat split; discriminate.
  - apply d_list; [now apply a_type_b|discriminate|]. constructor; [|constructor]. apply (m_function "double" None "" "*" "" "f" "double, int" None); [now apply identifier_b|discriminate|discriminate| |reflexivity].
    right. split; [exists "d"%char, "ouble, int"|exists "t"%char, "double, in"]; (split; [reflexivity|intros [X|X]; discriminate]).
  - apply d_typedef. now left.
Qed.
Example demo_lines : private_lines (flat_map (fun d => declaration_of (fst d) (snd d)) demo_sources) =
  Some ["  double x;"; "  const char * s;"; "  int a[3];"; "  int b[N][2 * N];"; "  double m[3][2];"; ("  double (" ++ "* f)(double, int);")%string].
Proof. reflexivity. Qed.
Example demo_theorem := C59_members_partial _ _ demo_means.

(** * Findings *)
Definition line (base : string) (d : declarator) (i : option string) : option string := member (set_type base i (visit_dtor d)).
(** A name that occurs at the start of the first size is removed from it: double N[N_MAX] becomes double N[_MAX], another size or no C.
    visitDirectDeclarator removes the text of the inner declarator with str.replace, which removes it everywhere. *)
Theorem C59_name_in_size_refuted : forall base n r, base <> "" -> identifier n -> symbolic r -> has_char "[" r = false -> has_char "]" r = false -> contains n r = false ->
  line base (Dtor None "" (array_of n [("", (n ++ r)%string)]) []) None = Some (c_text (Var base None n [r])) /\ c_text (Var base None n [r]) <> c_text (Var base None n [(n ++ r)%string]).
Proof.
  intros base n r B W R R1 R2 C. split.
  - assert (W' := identifier_word n W). unfold line. cbn [array_of fold_left fst snd visit_dtor visit_direct direct_text].
    assert (E : remove (String.length (n ++ "" ++ "[" ++ (n ++ r) ++ "]")) n (n ++ "" ++ "[" ++ (n ++ r) ++ "]") = ("[" ++ r ++ "]")%string).
    { assert (Nn := proj1 W').
      assert (G : forall f p x, remove (S f) n x = remove (S f) n x -> n = p -> remove (S f) n (p ++ x) = remove f n x).
      { intros f p x _ <-. cbn [remove]. destruct (n ++ x)%string as [|c t] eqn:E; [destruct n; [congruence|discriminate]|]. rewrite <- E.
        assert (X : startswith n (n ++ x) = true) by (apply startswith_spec; eauto). rewrite X. now rewrite substring_skip by (rewrite string_app_length; lia). }
      assert (L : exists k, String.length (n ++ "" ++ "[" ++ (n ++ r) ++ "]") = S (S (S k))).
      { rewrite !string_app_length. cbn [String.length]. destruct n as [|c n']; [congruence|]. cbn [String.length]. exists (String.length n' + (String.length n' + String.length r + 1)). lia. }
      assert (X : forall x, startswith n (String "[" x) = false).
      { intro x. destruct (word_start n W') as (c & q & -> & _). cbn [startswith]. assert (Y : Ascii.eqb c "[" = false); [|now rewrite Y]. pose proof (word_not "[" (String c q) W' eq_refl) as Y. cbn [has_char] in Y. now apply orb_false_iff in Y. }
      assert (G2 : forall f x, remove (S f) n (String "[" x) = String "[" (remove f n x)) by (intros f x; cbn [remove]; now rewrite X).
      destruct L as [k ->]. rewrite G by reflexivity. cbn [append]. rewrite G2. f_equal. rewrite string_app_assoc. rewrite G by reflexivity. apply remove_none. change (r ++ "]")%string with (r ++ String "]" "")%string. rewrite contains_sep; [|exact Nn|now apply word_not].
      rewrite C. destruct n; [congruence|reflexivity]. }
    rewrite E. change ("[" ++ r ++ "]")%string with (String "[" (r ++ "]")). rewrite split_at by (now apply word_not).
    assert (X : has_char "]" (n ++ String "[" (r ++ "]")) = true) by (rewrite has_char_app; cbn [has_char]; rewrite has_char_app; cbn; now rewrite !orb_true_r). rewrite X.
    assert (Z : sizes_of (S (String.length (r ++ "]"))) (r ++ "]") = [r]).
    { cbn [sizes_of]. change (r ++ "]")%string with (r ++ String "]" "")%string. rewrite split_at by assumption. cbn [split_once]. generalize (String.length (r ++ "]")). intros []; reflexivity. }
    rewrite Z. cbn [set_type q_pointer q_ext q_elements]. assert (T : elements_of [r] = Texts [r]) by (unfold elements_of; now rewrite (texts_of [r] ltac:(now constructor))). rewrite T.
    rewrite member_given; [|exact Logic.I|discriminate|reflexivity]. rewrite d_string_text by (assumption || discriminate). cbn [c_text sizes map size_str]. now rewrite !string_app_assoc.
  - cbn [c_text starred boxed map String.concat]. intro E. apply string_app_inj_l, string_app_inj_l in E. cbn [append] in E. apply string_app_inj_l in E. injection E as E. apply (f_equal String.length) in E. rewrite !string_app_length in E.
    destruct W as [Nn _]. destruct n; [congruence|]. cbn [String.length] in E. lia.
Qed.
Print Assumptions C59_name_in_size_refuted.
Example name_in_size : line "double" (Dtor None "" (array_of "N" [("", "N_MAX")]) []) None = Some "double N[_MAX]".
Proof. reflexivity. Qed.

(** An array with an initialiser that has no braces, as char name[16] = "abc", ends the translation with a division by zero: the sizes found in
    the initialiser are an empty tuple, and the number of dimensions is divided by its length. *)
Theorem C59_literal_refuted : forall base n l i, identifier n -> sizes_ok n l -> i <> "" -> has_char "{" i = false -> line base (Dtor None "" (array_of n l) []) (Some i) = None.
Proof.
  intros base n l i W S I B. unfold line. rewrite array_visited by assumption. cbn [set_type q_pointer q_ext q_elements]. unfold member. cbn [as_member q_elements q_init].
  assert (Ne : nonempty (Some i) = true) by (destruct i; [congruence|reflexivity]). rewrite Ne. cbn [opt].
  assert (E : initializer_size i = []).
  { unfold initializer_size. cbn [rounds]. rewrite <- (string_app_nil_r i) at 1. rewrite inner_none by assumption. reflexivity. }
  rewrite E. cbn [map List.length]. assert (L : sizes (elements_of (map snd l)) <> []).
  { destruct l as [|x l]; [destruct S|]. unfold elements_of. cbn [map all_some]. destruct (if snd x =?s "" then _ else _); [|discriminate]. destruct (all_some _); discriminate. }
  destruct (sizes (elements_of (map snd l))); [congruence|]. reflexivity.
Qed.
Print Assumptions C59_literal_refuted.
Example literal : line "char" (Dtor None "" (array_of "name" [("", "16")]) []) (Some """abc""") = None.
Proof. reflexivity. Qed.

(** An omitted first size stays omitted when another size is not a number: int a[][N] = ... becomes the member int a[][N], which is no C inside of a structure,
    whatever the initialiser is. *)
Theorem C59_omitted_refuted : forall base n l i, base <> "" -> identifier n -> sizes_ok n (("", "") :: l) -> initialised i -> Exists symbolic (map snd l) ->
  line base (Dtor None "" (array_of n (("", "") :: l)) []) i = Some (base ++ " " ++ n ++ "[]" ++ boxed (map snd l))%string.
Proof.
  intros base n l i B W S I X. unfold line. rewrite array_visited by assumption. cbn [set_type q_pointer q_ext q_elements map snd].
  assert (E : elements_of ("" :: map snd l) = Texts ("" :: map snd l)) by (unfold elements_of; rewrite texts_of; [reflexivity|now constructor 2]). rewrite E.
  rewrite member_given; [|exact I|discriminate|cbn [sizes existsb map omitted]; clear; induction l; [reflexivity|assumption]]. rewrite d_string_text by (assumption || discriminate). cbn [sizes map size_str starred].
  rewrite map_map. cbn [size_str]. rewrite map_id. unfold boxed at 1. cbn [map]. rewrite concat_cons. cbn [append]. now rewrite !string_app_assoc.
Qed.
Print Assumptions C59_omitted_refuted.
Example omitted_size : line "int" (Dtor None "" (array_of "a" [("", ""); ("", "N")]) []) (Some "{{1, 2}, {3, 4}}") = Some "int a[][N]".
Proof. reflexivity. Qed.

(** A list that ends in a comma is counted with one item more: int a[] = {1, 2, 3,} has three elements in C and becomes int a[4]. *)
Theorem C59_trailing_comma_refuted : forall base n l, base <> "" -> identifier n -> l <> [] -> Forall no_signs l ->
  line base (Dtor None "" (array_of n [("", "")]) []) (Some (text (items (l ++ [""])))) = Some (c_text (Var base None n [str_nat (S (List.length l))])).
Proof.
  intros base n l B W N F.
  assert (S0 : sizes_ok n [("", "")]) by (split; [reflexivity|]; split; [destruct W as [Nn _]; destruct n; [congruence|reflexivity]|]; split; [constructor|]; constructor; [now split|constructor]).
  unfold line. rewrite array_visited by assumption. cbn [set_type q_pointer q_ext q_elements map snd]. change (elements_of [""]) with (Ints [0%Z]).
  assert (Pr : proper (items (l ++ [""])) = true).
  { unfold items. cbn [proper]. change (simple "") with true. cbn [andb]. destruct (map Item (l ++ [""])) as [|t r] eqn:E; [destruct l; discriminate|]. rewrite <- E. apply forallb_forall. intros x Hx. apply in_map_iff in Hx as (y & <- & Hy).
    cbn [proper]. apply in_app_iff in Hy as [Hy|[<-|[]]]; [|reflexivity]. rewrite Forall_forall in F. apply no_signs_simple. auto. }
  destruct (size_of_initialiser _ Pr eq_refl) as (r & Er & Lr). unfold member. cbn [as_member q_elements q_init].
  assert (Ne : nonempty (Some (text (items (l ++ [""])))) = true) by reflexivity. rewrite Ne. cbn [opt]. rewrite Er. cbn [sizes map List.length]. change (S ?x <? 1) with false. cbn [existsb omitted]. cbv iota. cbn [orb fill omitted].
  change (0 =? 0)%Z with true. cbv iota. rewrite brackets_boxed. cbn [orb]. cbv iota. cbn [map size_str]. rewrite str_size_nat, d_string_text by (assumption || discriminate). cbn [c_text]. unfold items. cbn [width]. rewrite map_length, app_length. cbn [List.length].
  rewrite Nat.add_1_r. now rewrite !string_app_assoc.
Qed.
Print Assumptions C59_trailing_comma_refuted.
Example trailing_comma : line "int" (Dtor None "" (array_of "a" [("", "")]) []) (Some "{1, 2, 3,}") = Some "int a[4]".
Proof. reflexivity. Qed.

(** Without inner braces the items are counted, not the rows: int a[][2] = {1, 2, 3, 4} has two rows in C and becomes int a[4][2]; with three dimensions and braces of two levels the last dimension is lost:
    int a[][2][2] = {{1, 2, 3, 4}} becomes int a[1][2]. *)
Theorem C59_flat_refuted :
  line "int" (Dtor None "" (array_of "a" [("", ""); ("", "2")]) []) (Some "{1, 2, 3, 4}") = Some "int a[4][2]"
  /\ line "int" (Dtor None "" (array_of "a" [("", ""); ("", "2"); ("", "2")]) []) (Some "{{1, 2, 3, 4}}") = Some "int a[1][2]".
Proof. now split. Qed.
Print Assumptions C59_flat_refuted.

(** A size in octal is printed in decimal: int a[010], eight elements in C, becomes int a[10]. *)
Theorem C59_octal_refuted : forall base n k, base <> "" -> identifier n -> 0 < k -> contains n ("0" ++ str_nat k) = false ->
  line base (Dtor None "" (array_of n [("", ("0" ++ str_nat k)%string)]) []) None = Some (c_text (Var base None n [str_nat k])).
Proof.
  intros base n k B W K C.
  assert (Nk : Nat.to_uint k <> Decimal.Nil) by (intro X; pose proof (Unsigned.of_to k) as Y; rewrite X in Y; cbn in Y; lia).
  assert (U : NilEmpty.uint_of_string (str_nat k) = Some (Nat.to_uint k)).
  { pose proof (NilZero.usu (Nat.to_uint k) Nk) as H. fold (str_nat k) in H. unfold NilZero.uint_of_string in H. destruct (str_nat k) eqn:E; [discriminate|exact H]. }
  assert (Dg : forall c, has_char c ("0" ++ str_nat k) = true -> digit c = true).
  { intros c H. cbn [append has_char] in H. apply orb_true_iff in H as [H|H]; [apply Ascii.eqb_eq in H; subst c; reflexivity|exact (uint_digits _ _ U c H)]. }
  assert (Nc : forall c, digit c = false -> has_char c ("0" ++ str_nat k) = false) by (intros c H; destruct (has_char c ("0" ++ str_nat k)) eqn:E; [apply Dg in E; congruence|reflexivity]).
  assert (S0 : sizes_ok n [("", ("0" ++ str_nat k)%string)]) by (split; [reflexivity|]; split; [exact C|]; split; [constructor|]; constructor; [split; apply Nc; reflexivity|constructor]).
  assert (Sp : forall s, (forall c, has_char c s = true -> is_space c = false) -> rstrip s = s).
  { induction s as [|x s IH]; intro H; [reflexivity|]. cbn [rstrip]. rewrite IH by (intros c Hc; apply H; cbn [has_char]; now rewrite Hc, orb_true_r). destruct s; [|reflexivity]. now rewrite (H x) by (cbn; now rewrite Ascii.eqb_refl). }
  assert (St : strip ("0" ++ str_nat k) = ("0" ++ str_nat k)%string).
  { unfold strip. cbn [append lstrip]. change (is_space "0") with false. cbv iota. apply Sp. intros c Hc. specialize (Dg c Hc). unfold digit in Dg. unfold is_space. set (m := nat_of_ascii c) in *.
    rewrite andb_true_iff, !Nat.leb_le in Dg. rewrite !orb_false_iff, !andb_false_iff, !Nat.leb_gt, Nat.eqb_neq. lia. }
  unfold line. rewrite array_visited by assumption. cbn [set_type q_pointer q_ext q_elements map snd].
  assert (E : elements_of [("0" ++ str_nat k)%string] = Ints [Z.of_nat k]).
  { unfold elements_of. cbn [map all_some]. assert (X : ("0" ++ str_nat k =?s "") = false) by reflexivity. rewrite X. unfold py_int. rewrite St. unfold NilZero.uint_of_string. cbn [append]. cbn [NilEmpty.uint_of_string]. rewrite U.
    cbn [option_map uint_of_char]. change (Nat.of_uint (Decimal.D0 (Nat.to_uint k))) with (Nat.of_uint (Nat.to_uint k)). now rewrite Unsigned.of_to. }
  rewrite E. rewrite member_given; [|exact Logic.I|discriminate|cbn [sizes map existsb omitted]; destruct (Z.eqb_spec (Z.of_nat k) 0); [lia|reflexivity]]. rewrite d_string_text by (assumption || discriminate).
  cbn [sizes map size_str c_text]. rewrite str_size_nat. now rewrite !string_app_assoc.
Qed.
Print Assumptions C59_octal_refuted.
Example octal : line "int" (Dtor None "" (array_of "a" [("", "010")]) []) None = Some "int a[10]".
Proof. reflexivity. Qed.

(** Round brackets around a declarator are always taken for a pointer to a function: double (x) becomes the function double (x)(), and the pointer to an array double ( *p)[3] becomes double ( * p)([3]), which is no C. *)
Theorem C59_brackets_refuted : forall base n s p, base <> "" -> identifier n -> p <> "" -> contains ("(" ++ p ++ n ++ ")") ("[" ++ s ++ "]") = false ->
  line base (Dtor None "" (DBrackets None (Dtor None "" (DName n) [])) []) None = Some (base ++ " (" ++ n ++ ")()")%string
  /\ line base (Dtor None "" (DArray (DBrackets None (Dtor (Some p) "" (DName n) [])) "" s) []) None = Some (base ++ " (" ++ p ++ " " ++ n ++ ")([" ++ s ++ "])")%string.
Proof.
  intros base n s p B W P C. assert (Sp : split_once "[" n = None) by (apply split_once_none, word_not; [now apply identifier_word|reflexivity]).
  assert (Nb : nonempty (Some base) = true) by (destruct base; [congruence|reflexivity]). assert (Np : nonempty (Some p) = true) by (destruct p; [congruence|reflexivity]).
  split.
  - unfold line. cbn [visit_dtor visit_direct]. rewrite Sp. cbn [set_type q_pointer q_ext q_elements]. unfold member. cbn [as_member q_elements q_init nonempty List.length]. change (?x <? 0) with false. cbv iota.
    rewrite d_string_text by (assumption || discriminate). cbn [starred]. unfold f_string, d_string. cbn [q_ext q_pointer q_dtype join nonempty opt]. change ("" =?s "") with true. cbv iota. cbn [append]. now rewrite ?string_app_assoc.
  - unfold line. cbn [visit_dtor visit_direct]. rewrite Sp. cbv iota. cbn [direct_text dtor_text map String.concat]. set (t := ("(" ++ p ++ n ++ ")")%string) in *.
    assert (R : forall x, x = (t ++ ("[" ++ s ++ "]"))%string -> remove (String.length x) t x = ("[" ++ s ++ "]")%string).
    { intros x ->. assert (L : exists k, String.length (t ++ ("[" ++ s ++ "]")) = S k) by (unfold t; cbn; eauto). destruct L as [k L]. rewrite L. apply remove_first; [unfold t; discriminate|exact C]. }
    match goal with |- context [remove ?k ?q ?x] => assert (E : remove k q x = ("[" ++ s ++ "]")%string) end.
    { match goal with |- remove _ ?q ?x = _ => transitivity (remove (String.length x) t x); [apply (f_equal (fun z => remove (String.length x) z x))|apply R] end; unfold t;
      rewrite ?string_app_nil_r; cbn [append]; rewrite ?string_app_assoc; cbn [append]; rewrite ?string_app_assoc; reflexivity. }
    rewrite E. assert (T : trim bracket ("[" ++ s ++ "]") = ("[" ++ s ++ "]")%string).
    { unfold trim. cbn [append ltrim]. change (bracket "[") with false. cbv iota. change (String "[" (s ++ "]")) with (("[" ++ s) ++ String "]" "")%string. now apply rtrim_keep. }
    rewrite T. cbn [set_type q_pointer q_ext q_elements]. unfold member. cbn [as_member q_elements q_init nonempty List.length]. change (?x <? 0) with false. cbv iota.
    rewrite d_string_text by (assumption || discriminate). cbn [starred]. unfold f_string. cbn [nonempty append opt]. unfold d_string. cbn [q_ext q_pointer q_dtype join opt]. rewrite Np. cbn [nonempty]. change ("" =?s "") with true. cbv iota. cbn [append].
    rewrite ?string_app_assoc. cbn [append]. rewrite ?string_app_assoc. reflexivity.
Qed.
Print Assumptions C59_brackets_refuted.
Example brackets_witness : line "double" (Dtor None "" (DArray (DBrackets None (Dtor (Some "*") "" (DName "p") [])) "" "3") []) None = Some ("double (" ++ "* p)([3])")%string.
Proof. reflexivity. Qed.

(** Arguments of a pointer to a function that end in a round bracket lose it, and those after a blank keep the first one: void ( *f)(int ( * )(int)) becomes void ( * f)(int ( * )(int), which is no C. *)
Theorem C59_arguments_refuted :
  line "void" (Dtor None "" (DCall (DBrackets None (Dtor (Some "*") "" (DName "f") [])) "" "int ( *)(int)") []) None = Some ("void (" ++ "* f)(int ( *)(int)")%string
  /\ line "void" (Dtor None "" (DCall (DBrackets None (Dtor (Some "*") "" (DName "f") [])) " " "int") []) None = Some ("void (" ++ "* f)( (int)")%string.
Proof. now split. Qed.
Print Assumptions C59_arguments_refuted.

(** A storage class stays in the member: static int n; in a DECLARE section becomes the member static int n;, which is no C inside of a structure. *)
Theorem C59_storage_refuted : forall s specs n, In s storage -> s <> "typedef" -> a_type specs -> identifier n -> n <> "typedef" ->
  private_lines (declaration_of (s :: specs ++ [n]) []) = Some ["  " ++ s ++ " " ++ join " " specs ++ " " ++ n ++ ";"]%string.
Proof.
  intros s specs n S T [B A] W N. unfold declaration_of. cbn [existsb]. rewrite existsb_app, (no_typedef _ A). cbn [existsb]. assert (X : "typedef" =?s s = false) by (apply String.eqb_neq; congruence).
  assert (Y : "typedef" =?s n = false) by (apply String.eqb_neq; congruence). rewrite X, Y. cbn [orb]. destruct specs as [|x specs]; [contradiction B; reflexivity|].
  change (s :: (x :: specs) ++ [n]) with ((s :: x :: specs) ++ [n]). rewrite last_last, removelast_last, app_length. change (1 <? List.length (s :: x :: specs) + List.length [n]) with true. cbv iota.
  unfold private_lines. cbn [map all_some].
  assert (B' : join " " (s :: x :: specs) <> "") by (rewrite join_cons by discriminate; destruct s; discriminate).
  pose proof (item_member (join " " (s :: x :: specs)) (Dtor None "" (DName n) [], None) (Var (join " " (s :: x :: specs)) None n []) B' ltac:(apply m_plain; [exact W|discriminate])) as M. cbn [fst snd visit_dtor visit_direct] in M.
  assert (Sp : split_once "[" n = None) by (apply split_once_none, word_not; [now apply identifier_word|reflexivity]). rewrite Sp in M. cbn [set_type q_pointer q_ext q_elements] in M. rewrite M.
  cbn [option_map c_text starred boxed map String.concat]. rewrite (join_cons " " s) by discriminate. rewrite string_app_nil_r. cbn [append]. now rewrite !string_app_assoc.
Qed.
Print Assumptions C59_storage_refuted.
Example storage_witness : private_lines (declaration_of ["static"; "int"; "n"] []) = Some ["  static int n;"].
Proof. reflexivity. Qed.
