(** Property C67: the table of metadata in the generated C source. *)
From Coq Require Import List String Ascii Bool NArith Arith Lia DecimalString DecimalNat.
From Verif Require Import PyStr CText InstrModel MetaTable Hdf5Facts.
From Verif Require Properties_CText.
Import ListNotations.
Local Open Scope string_scope.
Local Open Scope list_scope.
Local Open Scope nat_scope.

(** * Specification: how C reads the table *)
Inductive tok := TLit (b : list N) | TSym (c : N) | TWord (w : list N).
(** a literal behind its opening quote: up to the closing quote, and the rest *)
Fixpoint lit_end (l : list N) : option (list N * list N) :=
  match l with
  | [] => None
  | c :: r =>
      if (c =? 34)%N then Some ([c], r)
      else if (c =? 92)%N then match r with [] => None | e :: r' => match lit_end r' with Some (a, b) => Some (c :: e :: a, b) | None => None end end
      else match lit_end r with Some (a, b) => Some (c :: a, b) | None => None end
  end.
Definition blank (c : N) : bool := existsb (N.eqb c) [32; 9; 10; 13]%N.
Definition wordc (c : N) : bool := ((65 <=? c) && (c <=? 90) || (97 <=? c) && (c <=? 122) || (48 <=? c) && (c <=? 57) || (c =? 95))%N.
Fixpoint span (p : N -> bool) (l : list N) : list N * list N :=
  match l with c :: r => if p c then let '(a, b) := span p r in (c :: a, b) else ([], l) | [] => ([], []) end.
Definition sym (c : N) : bool := existsb (N.eqb c) [123; 125; 44; 59; 61; 91; 93]%N.
Fixpoint toks (fuel : nat) (l : list N) : option (list tok) :=
  match fuel with
  | O => None
  | S f =>
    match l with
    | [] => Some []
    | c :: r =>
      if blank c then toks f r
      else if (c =? 34)%N then match lit_end r with
                               | Some (a, q) => match chars (S (List.length a)) a with Some b => option_map (cons (TLit b)) (toks f q) | None => None end
                               | None => None end
      else if sym c then option_map (cons (TSym c)) (toks f r)
      else if wordc c then let '(w, q) := span wordc l in option_map (cons (TWord w)) (toks f q)
      else None
    end
  end.
(** trigraphs first, then tokens *)
Definition c_toks (l : list N) : option (list tok) := toks (S (List.length (trigraphs l))) (trigraphs l).
(** literals that follow one another are one string *)
Fixpoint strs (l : list tok) : option (list N * list tok) :=
  match l with TLit a :: r => match strs r with Some (b, q) => Some (a ++ b, q) | None => Some (a, r) end | _ => None end.
Definition is_sym (c : N) (l : list tok) : option (list tok) := match l with TSym d :: r => if (d =? c)%N then Some r else None | _ => None end.
Definition is_word (s : string) (l : list tok) : option (list tok) := match l with TWord w :: r => if list_eq_dec N.eq_dec w (codes s) then Some r else None | _ => None end.
Definition bind {A B} (o : option A) (f : A -> option B) : option B := match o with Some a => f a | None => None end.
(** a structure of four strings: source, name, type, value *)
Definition entry : Type := (list N * list N * list N * list N)%type.
Definition c_entry (l : list tok) : option (entry * list tok) :=
  bind (is_sym 123 l) (fun l => bind (strs l) (fun '(a, l) => bind (is_sym 44 l) (fun l => bind (strs l) (fun '(b, l) => bind (is_sym 44 l) (fun l =>
  bind (strs l) (fun '(c, l) => bind (is_sym 44 l) (fun l => bind (strs l) (fun '(d, l) => bind (is_sym 125 l) (fun l => Some ((a, b, c, d), l)))))))))).
(** the list of structures: closed after a structure or after a comma *)
Fixpoint c_entries (fuel : nat) (l : list tok) : option (list entry * list tok) :=
  match fuel with
  | O => None
  | S f => match is_sym 125 l with
           | Some r => Some ([], r)
           | None => bind (c_entry l) (fun '(e, l) =>
                     match is_sym 44 l with
                     | Some l => bind (c_entries f l) (fun '(es, l) => Some (e :: es, l))
                     | None => bind (is_sym 125 l) (fun l => Some ([e], l)) end)
           end
  end.
Definition number_word (w : list N) : option nat := option_map Nat.of_uint (NilEmpty.uint_of_string (string_of_list_ascii (map ascii_of_N w))).
(** the elements of metadata_table and the value of num_metadata *)
Definition c_table (l : list N) : option (list entry * nat) :=
  bind (c_toks l) (fun l => bind (is_word "struct" l) (fun l => bind (is_word "metadata_table_struct" l) (fun l => bind (is_word "metadata_table" l) (fun l =>
  bind (is_sym 91 l) (fun l => bind (is_sym 93 l) (fun l => bind (is_sym 61 l) (fun l => bind (is_sym 123 l) (fun l =>
  bind (c_entries (S (List.length l)) l) (fun '(es, l) => bind (is_sym 59 l) (fun l => bind (is_word "int" l) (fun l => bind (is_word "num_metadata" l) (fun l =>
  bind (is_sym 61 l) (fun l => match l with [TWord w; TSym 59%N] => option_map (fun n => (es, n)) (number_word w) | _ => None end))))))))))))).
(** the string a text is when it stands between quotes in a C source *)
Definition between_quotes (s : string) (b : list N) : Prop := c_reads (34%N :: codes s ++ [34%N]) = Some b.
(** an entry of the metadata [m] *)
Definition entry_of (m : meta) (e : entry) : Prop :=
  let '(a, b, c, d) := e in between_quotes (m_source m) a /\ between_quotes (m_name m) b /\ between_quotes (m_mime m) c /\ c_reads (literal (codes (m_value m))) = Some d.
(** the end of the table *)
Definition end_entry : entry := ([], [], [], []).
(** texts without quotes, backslashes, characters beyond the printable ones, and trigraphs *)
Definition ordinary (s : string) : Prop := (forall c, In c (list_ascii_of_string s) -> (32 <= N_of_ascii c < 127)%N /\ c <> """"%char /\ c <> "\"%char) /\ trigraph_free (codes s) = true.

(** * Lemmas *)
Lemma digits_split k : forall l acc n v m q, digits k acc n l = (v, m, q) -> exists ds, l = ds ++ q /\ Forall (fun c => c <> 34 /\ c <> 92)%N ds.
Proof.
  intro l. revert k. induction l as [|c r IH]; intros k acc n v m q H; cbn [digits] in H.
  - destruct k as [[|k]|]; injection H as <- <- <-; exists []; auto.
  - assert (Z : forall k', (forall d, unhex c = Some d -> digits k' (acc * 16 + d) (S n) r = (v, m, q)) -> (unhex c = None -> (acc, n, c :: r) = (v, m, q)) -> exists ds, c :: r = ds ++ q /\ Forall (fun c => c <> 34 /\ c <> 92)%N ds).
    { intros k' A B. destruct (unhex c) as [d|] eqn:U.
      - specialize (A d eq_refl). destruct (IH k' _ _ _ _ _ A) as (ds & -> & F). exists (c :: ds). split; [reflexivity|]. constructor; [|exact F].
        split; intros ->; discriminate U.
      - specialize (B eq_refl). injection B as _ _ <-. exists []. auto. }
    destruct k as [[|k]|].
    + injection H as <- <- <-. exists []. auto.
    + apply (Z (Some k)); intros; [rewrite H0 in H|rewrite H0 in H]; exact H.
    + apply (Z None); intros; rewrite H0 in H; exact H.
Qed.
Lemma lit_skip ds l : Forall (fun c => c <> 34 /\ c <> 92)%N ds -> lit_end (ds ++ l) = match lit_end l with Some (a, b) => Some (ds ++ a, b) | None => None end.
Proof.
  induction 1 as [|c ds [A B] F IH]; cbn [app]; [now destruct (lit_end l) as [[a b]|]|]. cbn [lit_end]. apply N.eqb_neq in A, B. rewrite A, B, IH. now destruct (lit_end l) as [[a b]|].
Qed.
Lemma octal_split k : forall l acc v q, octal k acc l = (v, q) -> exists ds, l = ds ++ q /\ Forall (fun c => c <> 34 /\ c <> 92)%N ds.
Proof.
  induction k as [|k IH]; intros l acc v q H; cbn [octal] in H; [injection H as _ <-; exists []; auto|]. destruct l as [|c r]; [injection H as _ <-; exists []; auto|].
  destruct ((48 <=? c)%N && (c <=? 55)%N) eqn:E.
  - destruct (IH r _ _ _ H) as (ds & -> & F). exists (c :: ds). split; [reflexivity|]. constructor; [|exact F]. apply andb_prop in E as [E1 E2]. apply N.leb_le in E1, E2. lia.
  - injection H as _ <-. exists []. auto.
Qed.
Lemma chars_end f : forall l b rest, chars f l = Some b -> lit_end (l ++ rest) = Some (l, rest).
Proof.
  induction f as [|f IH]; intros l b rest H; [discriminate|]. cbn [chars] in H. destruct l as [|c r]; [discriminate|]. cbn [app lit_end].
  destruct (N.eqb_spec c 34) as [->|N34]; [destruct r; [reflexivity|discriminate]|]. destruct (N.eqb_spec c 10); [discriminate|]. destruct (N.eqb_spec c 92) as [->|N92].
  - destruct r as [|e r]; [discriminate|]. cbn [app].
    assert (Z : forall q ds x, r = ds ++ q -> Forall (fun c => c <> 34 /\ c <> 92)%N ds -> chars f q = Some x -> match lit_end (r ++ rest) with Some (a, b) => Some (92%N :: e :: a, b) | None => None end = Some (92%N :: e :: r, rest)).
    { intros q ds x -> F X. rewrite <- app_assoc, lit_skip by exact F. now rewrite (IH q x rest X). }
    destruct (e =? 120)%N.
    { destruct (digits None 0 0 r) as [[v n'] q] eqn:D. destruct ((n' =? 0) || (255 <? v)%N); [discriminate|]. destruct (chars f q) as [x|] eqn:X; [|discriminate].
      destruct (digits_split _ _ _ _ _ _ _ D) as (ds & E & F). exact (Z q ds x E F X). }
    destruct ((e =? 117)%N || (e =? 85)%N).
    { destruct (digits (Some (if (e =? 117)%N then 4 else 8)) 0 0 r) as [[v n'] q] eqn:D. destruct ((n' =? (if (e =? 117)%N then 4 else 8)) && ucn v); [|discriminate]. destruct (chars f q) as [x|] eqn:X; [|discriminate].
      destruct (digits_split _ _ _ _ _ _ _ D) as (ds & E & F). exact (Z q ds x E F X). }
    destruct ((48 <=? e)%N && (e <=? 55)%N) eqn:O.
    { change (octal 3 0 (e :: r)) with (if (48 <=? e)%N && (e <=? 55)%N then octal 2 (0 * 8 + (e - 48)) r else (0%N, e :: r)) in H. rewrite O in H.
      destruct (octal 2 (0 * 8 + (e - 48)) r) as [v q] eqn:D. destruct (255 <? v)%N; [discriminate|]. destruct (chars f q) as [x|] eqn:X; [|discriminate].
      destruct (octal_split _ _ _ _ _ D) as (ds & E & F). exact (Z q ds x E F X). }
    destruct (simple e); [|discriminate]. destruct (chars f r) as [x|] eqn:X; [|discriminate]. exact (Z r [] x eq_refl (Forall_nil _) X).
  - destruct (chars f r) as [x|] eqn:X; [|discriminate]. now rewrite (IH r x rest X).
Qed.
Lemma trig_skip a r : Forall (fun c => c <> 63)%N a -> trigraphs (a ++ r) = a ++ trigraphs r.
Proof.
  induction 1 as [|c a C F IH]; [reflexivity|]. cbn [app trigraphs]. rewrite IH. apply N.eqb_neq in C. rewrite C. destruct (a ++ r) as [|b [|x y]]; reflexivity.
Qed.
Lemma trig_step a t : trigraphs (a :: t) = match t with b :: x :: r => if (a =? 63)%N && (b =? 63)%N then match trig x with Some y => y :: trigraphs r | None => a :: trigraphs t end else a :: trigraphs t | _ => a :: trigraphs t end.
Proof. destruct t as [|b [|x r]]; reflexivity. Qed.
Lemma trig_cut r : forall n x, List.length x <= n -> trigraphs (x ++ 34%N :: r) = trigraphs (x ++ [34%N]) ++ trigraphs r.
Proof.
  induction n as [|n IH]; intros x L.
  { destruct x; [|cbn in L; lia]. change (([] : list N) ++ 34%N :: r) with ([34%N] ++ r). rewrite trig_skip by (constructor; [discriminate|constructor]). reflexivity. }
  destruct x as [|a x]; [apply (IH []); cbn; lia|]. cbn [List.length] in L. cbn [app]. pose proof (IH x ltac:(lia)) as I1. rewrite (trig_step a (x ++ 34%N :: r)), (trig_step a (x ++ [34%N])), I1.
  destruct x as [|b x]; cbn [app].
  - destruct r as [|y r]; [reflexivity|]. change (34 =? 63)%N with false. rewrite andb_false_r. reflexivity.
  - destruct x as [|c x]; cbn [app].
    + change (trig 34) with (@None N). destruct ((a =? 63)%N && (b =? 63)%N); reflexivity.
    + destruct ((a =? 63)%N && (b =? 63)%N); [|reflexivity]. destruct (trig c) as [y|]; [|reflexivity]. rewrite IH by (cbn in *; lia). reflexivity.
Qed.
Lemma cut x r : trigraphs (x ++ 34%N :: r) = trigraphs (x ++ [34%N]) ++ trigraphs r.
Proof. exact (trig_cut r _ x (le_n _)). Qed.
(** from one place of the text to another the reader goes over the tokens [p] *)
Definition goes (l : list N) (p : list tok) (r : list N) : Prop := forall f, List.length l < f -> exists f', List.length r < f' /\ toks f l = option_map (app p) (toks f' r).
Lemma goes_nil l : goes l [] l.
Proof. intros f L. exists f. split; [exact L|]. now destruct (toks f l). Qed.
Lemma goes_trans a p b q c : goes a p b -> goes b q c -> goes a (p ++ q) c.
Proof.
  intros H K f L. destruct (H f L) as (f1 & L1 & E1). destruct (K f1 L1) as (f2 & L2 & E2). exists f2. split; [exact L2|]. rewrite E1, E2. destruct (toks f2 c); [|reflexivity]. cbn. now rewrite app_assoc.
Qed.
Lemma goes_blank c r : blank c = true -> goes (c :: r) [] r.
Proof. intros B f L. destruct f as [|f]; [inversion L|]. exists f. cbn in L. split; [lia|]. cbn [toks]. rewrite B. now destruct (toks f r). Qed.
Lemma goes_sym c r : blank c = false -> (c =? 34)%N = false -> sym c = true -> goes (c :: r) [TSym c] r.
Proof. intros B Q H f L. destruct f as [|f]; [inversion L|]. exists f. cbn in L. split; [lia|]. cbn [toks]. rewrite B, Q, H. now destruct (toks f r). Qed.
Lemma span_app p w r : forallb p w = true -> match r with c :: _ => p c = false | [] => True end -> span p (w ++ r) = (w, r).
Proof.
  intros F R. induction w as [|c w IH]; cbn [app].
  - destruct r as [|c r]; [reflexivity|]. cbn [span]. now rewrite R.
  - cbn [forallb] in F. apply andb_prop in F as [C F]. cbn [span]. now rewrite C, (IH F).
Qed.
Lemma word_other c : wordc c = true -> blank c = false /\ (c =? 34)%N = false /\ sym c = false.
Proof.
  unfold wordc, blank, sym. intro H.
  assert (N : forall d, In d [32; 9; 10; 13; 34; 123; 125; 44; 59; 61; 91; 93]%N -> (c =? d)%N = false).
  { intros d D. apply N.eqb_neq. intros ->. repeat (destruct D as [<-|D]; [discriminate H|]). destruct D. }
  cbn [existsb]. rewrite !N by (cbn; auto 15). auto.
Qed.
Lemma goes_word w r : w <> [] -> forallb wordc w = true -> match r with c :: _ => wordc c = false | [] => True end -> goes (w ++ r) [TWord w] r.
Proof.
  intros E F R f L. destruct f as [|f]; [inversion L|]. exists f. rewrite app_length in L. destruct w as [|c w]; [contradiction|]. cbn [List.length] in L. split; [lia|].
  pose proof (span_app wordc (c :: w) r F R) as P. cbn [app] in *. cbn [toks]. cbn [forallb] in F. apply andb_prop in F as [C _]. destruct (word_other c C) as (B & Q & S'). rewrite B, Q, S', C, P. now destruct (toks f r).
Qed.
Lemma goes_lit t b r : chars (S (List.length t)) t = Some b -> goes (34%N :: t ++ r) [TLit b] r.
Proof.
  intros H f L. destruct f as [|f]; [inversion L|]. exists f. cbn [List.length] in L. rewrite app_length in L. split; [lia|].
  cbn [toks]. change (blank 34) with false. change (34 =? 34)%N with true. cbv iota. rewrite (chars_end _ _ _ r H), H. now destruct (toks f r).
Qed.
Lemma reads_chars x b : c_reads (34%N :: x ++ [34%N]) = Some b -> chars (S (List.length (trigraphs (x ++ [34%N])))) (trigraphs (x ++ [34%N])) = Some b.
Proof.
  unfold c_reads. change (34%N :: x ++ [34%N]) with ([34%N] ++ x ++ [34%N]). rewrite trig_skip by (constructor; [discriminate|constructor]). cbn [app]. change (34 =? 34)%N with true. exact (fun H => H).
Qed.
(** a quoted text in the source *)
Lemma goes_quoted x b r : c_reads (34%N :: x ++ [34%N]) = Some b -> goes (trigraphs (34%N :: x ++ 34%N :: r)) [TLit b] (trigraphs r).
Proof.
  intro H. change (34%N :: x ++ 34%N :: r) with ([34%N] ++ x ++ 34%N :: r). rewrite trig_skip by (constructor; [discriminate|constructor]). rewrite cut. cbn [app]. apply goes_lit. now apply reads_chars.
Qed.
Definition row_toks (e : entry) : list tok := let '(a, b, c, d) := e in [TSym 123%N; TLit a; TSym 44%N; TLit b; TSym 44%N; TLit c; TSym 44%N; TLit d; TSym 125%N].
Ltac no63 := repeat (constructor; [discriminate|]); constructor.
Lemma goes_comma r : goes (trigraphs (codes ", " ++ r)) [TSym 44%N] (trigraphs r).
Proof.
  rewrite trig_skip by no63. change (codes ", ") with [44; 32]%N. cbn [app]. eapply (goes_trans _ [TSym 44%N] _ []); [now apply goes_sym|now apply goes_blank].
Qed.
Lemma one_line_shape m r : one_line m ++ r = [32; 123]%N ++ 34%N :: codes (m_source m) ++ 34%N :: codes ", " ++ 34%N :: codes (m_name m) ++ 34%N :: codes ", " ++ 34%N :: codes (m_mime m) ++ 34%N :: codes ", "
  ++ 34%N :: escape (codes (m_value m)) ++ 34%N :: codes "}, " ++ r.
Proof.
  unfold one_line. change (codes (" {" +++ String dq "")) with [32; 123; 34]%N. change (codes (String dq (", " +++ String dq ""))) with [34; 44; 32; 34]%N. change (codes (String dq "}, ")) with [34; 125; 44; 32]%N.
  change (codes ", ") with [44; 32]%N. change (codes "}, ") with [125; 44; 32]%N. rewrite <- !app_assoc. reflexivity.
Qed.
Lemma goes_line m e r : entry_of m e -> goes (trigraphs (one_line m ++ r)) (row_toks e ++ [TSym 44%N]) (trigraphs r).
Proof.
  destruct e as [[[a b] c] d]. intros (A & B & C & D). rewrite one_line_shape. rewrite trig_skip by no63. cbn [app].
  eapply (goes_trans _ []); [now apply goes_blank|]. eapply (goes_trans _ [TSym 123%N] _ _ _); [now apply goes_sym|].
  eapply (goes_trans _ [TLit a] _ _ _ (goes_quoted _ _ _ A)). eapply (goes_trans _ [TSym 44%N] _ _ _ (goes_comma _)).
  eapply (goes_trans _ [TLit b] _ _ _ (goes_quoted _ _ _ B)). eapply (goes_trans _ [TSym 44%N] _ _ _ (goes_comma _)).
  eapply (goes_trans _ [TLit c] _ _ _ (goes_quoted _ _ _ C)). eapply (goes_trans _ [TSym 44%N] _ _ _ (goes_comma _)).
  eapply (goes_trans _ [TLit d] _ _ _ (goes_quoted _ _ _ D)). rewrite trig_skip by no63. change (codes "}, ") with [125; 44; 32]%N. cbn [app].
  eapply (goes_trans _ [TSym 125%N] _ _ _); [now apply goes_sym|]. eapply (goes_trans _ [TSym 44%N] _ []); [now apply goes_sym|now apply goes_blank].
Qed.
Lemma goes_lines ms es r : Forall2 entry_of ms es -> goes (trigraphs (flat_map (fun m => one_line m ++ nl) ms ++ r)) (flat_map (fun e => row_toks e ++ [TSym 44%N]) es) (trigraphs r).
Proof.
  induction 1 as [|m e ms es H F IH]; [apply goes_nil|]. cbn [flat_map]. rewrite <- !app_assoc. rewrite (app_assoc (row_toks e)). eapply goes_trans; [apply goes_line; exact H|].
  rewrite trig_skip by no63. unfold nl. cbn [app]. eapply (goes_trans _ []); [now apply goes_blank|]. exact IH.
Qed.
Lemma goes_wordr s r : codes s <> [] -> forallb wordc (codes s) = true -> match r with c :: _ => wordc c = false | [] => True end -> goes (codes s ++ r) [TWord (codes s)] r.
Proof. apply goes_word. Qed.
Definition head_toks : list tok := [TWord (codes "struct"); TWord (codes "metadata_table_struct"); TWord (codes "metadata_table"); TSym 91%N; TSym 93%N; TSym 61%N; TSym 123%N].
Lemma goes_head r : goes (trigraphs (head_line ++ nl ++ r)) head_toks (trigraphs r).
Proof.
  rewrite trig_skip by no63. rewrite trig_skip by no63.
  change (head_line ++ nl ++ trigraphs r) with (codes "struct" ++ 32%N :: codes "metadata_table_struct" ++ 32%N :: codes "metadata_table" ++ [91; 93; 32; 61; 32; 123; 10]%N ++ trigraphs r). unfold head_toks.
  eapply (goes_trans _ [_] _ _); [now apply goes_word|]. eapply (goes_trans _ []); [now apply goes_blank|].
  eapply (goes_trans _ [_] _ _); [now apply goes_word|]. eapply (goes_trans _ []); [now apply goes_blank|].
  eapply (goes_trans _ [_] _ _); [now apply goes_word|]. cbn [app].
  eapply (goes_trans _ [_] _ _); [now apply goes_sym|]. eapply (goes_trans _ [_] _ _); [now apply goes_sym|]. eapply (goes_trans _ []); [now apply goes_blank|].
  eapply (goes_trans _ [_] _ _); [now apply goes_sym|]. eapply (goes_trans _ []); [now apply goes_blank|]. eapply (goes_trans _ [_] _ []); [now apply goes_sym|now apply goes_blank].
Qed.
Definition num_toks (n : nat) : list tok := [TWord (codes "int"); TWord (codes "num_metadata"); TSym 61%N; TWord (codes (str_nat n)); TSym 59%N].
Lemma codes_app a b : codes (a +++ b) = codes a ++ codes b.
Proof. unfold codes. induction a as [|c a IH]; [reflexivity|]. cbn [append list_ascii_of_string map app]. now f_equal. Qed.
Lemma codes_back s : string_of_list_ascii (map ascii_of_N (codes s)) = s.
Proof. unfold codes. induction s as [|c s IH]; [reflexivity|]. cbn [list_ascii_of_string map string_of_list_ascii]. now rewrite ascii_N_embedding, IH. Qed.
Lemma uint_word d : forallb wordc (codes (NilEmpty.string_of_uint d)) = true /\ Forall (fun c => c <> 63%N) (codes (NilEmpty.string_of_uint d)).
Proof. induction d; (split; [try reflexivity|try constructor]); try (destruct IHd as [A B]); cbn; try exact A; try discriminate; exact B. Qed.
Lemma number_of n : forallb wordc (codes (str_nat n)) = true /\ Forall (fun c => c <> 63%N) (codes (str_nat n)) /\ codes (str_nat n) <> [] /\ number_word (codes (str_nat n)) = Some n.
Proof.
  assert (E : str_nat n = "0" \/ str_nat n = NilEmpty.string_of_uint (Nat.to_uint n)) by (unfold str_nat, NilZero.string_of_uint; destruct (Nat.to_uint n); auto).
  destruct (str_nat_read n) as (d & D & V).
  repeat split.
  - destruct E as [->| ->]; [reflexivity|apply uint_word].
  - destruct E as [->| ->]; [no63|apply uint_word].
  - intro X. assert (Y : str_nat n = "") by (destruct (str_nat n); [reflexivity|discriminate X]). unfold str_nat, NilZero.string_of_uint in Y. destruct (Nat.to_uint n); discriminate Y.
  - unfold number_word. rewrite codes_back, D. cbn. now rewrite V.
Qed.
Lemma goes_tail n : goes (trigraphs (last_line ++ nl ++ codes "};" ++ nl ++ codes ("int num_metadata = " +++ str_nat n +++ ";"))) (row_toks end_entry ++ [TSym 125%N; TSym 59%N] ++ num_toks n) [].
Proof.
  destruct (number_of n) as (W & Q & E & _). rewrite !codes_app. do 6 (rewrite trig_skip by (try no63; exact Q)).
  change (trigraphs (codes ";")) with [59%N].
  change (last_line ++ nl ++ codes "};" ++ nl ++ codes "int num_metadata = " ++ codes (str_nat n) ++ [59%N])
    with ([32; 32; 123]%N ++ 34%N :: [34%N] ++ [44; 32]%N ++ 34%N :: [34%N] ++ [44; 32]%N ++ 34%N :: [34%N] ++ [44; 32]%N ++ 34%N :: [34%N] ++ [125; 10; 125; 59; 10]%N ++ codes "int" ++ 32%N :: codes "num_metadata" ++ 32%N :: 61%N :: 32%N :: codes (str_nat n) ++ [59%N]).
  assert (L : forall r, goes (34%N :: [34%N] ++ r) [TLit []] r) by (intro r; now apply goes_lit).
  assert (C : forall r, goes ([44; 32]%N ++ r) [TSym 44%N] r) by (intro r; cbn [app]; eapply (goes_trans _ [_] _ []); [now apply goes_sym|now apply goes_blank]).
  change ([32; 32; 123]%N ++ ?r) with (32%N :: 32%N :: 123%N :: r). eapply (goes_trans _ []); [now apply goes_blank|]. eapply (goes_trans _ []); [now apply goes_blank|]. eapply (goes_trans _ [_] _ _); [now apply goes_sym|].
  do 3 (eapply (goes_trans _ [_] _ _); [apply L|]; eapply (goes_trans _ [_] _ _); [apply C|]). eapply (goes_trans _ [_] _ _); [apply L|].
  change ([125; 10; 125; 59; 10]%N ++ ?r) with (125%N :: 10%N :: 125%N :: 59%N :: 10%N :: r).
  eapply (goes_trans _ [_] _ _); [now apply goes_sym|]. eapply (goes_trans _ []); [now apply goes_blank|]. eapply (goes_trans _ [_] _ _); [now apply goes_sym|]. eapply (goes_trans _ [_] _ _); [now apply goes_sym|]. eapply (goes_trans _ []); [now apply goes_blank|].
  eapply (goes_trans _ [_] _ _); [now apply goes_word|]. eapply (goes_trans _ []); [now apply goes_blank|]. eapply (goes_trans _ [_] _ _); [now apply goes_word|]. eapply (goes_trans _ []); [now apply goes_blank|].
  eapply (goes_trans _ [_] _ _); [now apply goes_sym|]. eapply (goes_trans _ []); [now apply goes_blank|]. eapply (goes_trans _ [_] _ _); [now apply goes_word|]. now apply goes_sym.
Qed.
Lemma table_toks s es : Forall2 entry_of (collect_metadata s) es ->
  c_toks (metadata_table s) = Some (head_toks ++ flat_map (fun e => row_toks e ++ [TSym 44%N]) es ++ row_toks end_entry ++ [TSym 125%N; TSym 59%N] ++ num_toks (List.length (collect_metadata s))).
Proof.
  intro H. unfold c_toks, metadata_table.
  pose proof (goes_trans _ _ _ _ _ (goes_head _) (goes_trans _ _ _ _ _ (goes_lines _ _ _ H) (goes_tail (List.length (collect_metadata s))))) as G.
  destruct (G _ (Nat.lt_succ_diag_r _)) as (f & L & ->). destruct f as [|f]; [inversion L|]. cbn [toks option_map]. now rewrite app_nil_r.
Qed.
Lemma entries_read es : forall f r, List.length es < f -> c_entries f (flat_map (fun e => row_toks e ++ [TSym 44%N]) es ++ row_toks end_entry ++ TSym 125%N :: r) = Some (es ++ [end_entry], r).
Proof.
  induction es as [|e es IH]; intros f r L; (destruct f as [|f]; [inversion L|]).
  - reflexivity.
  - cbn [List.length] in L. destruct e as [[[a b] c] d]. cbn [flat_map row_toks app]. cbn [c_entries is_sym]. change (123 =? 125)%N with false. cbv iota.
    unfold c_entry. cbn - [c_entries flat_map row_toks]. rewrite IH by lia. reflexivity.
Qed.

(** * C67 *)
(** When each text alone is a literal, C reads the table as one element for each of the collected metadata, in their order, then an element of empty strings; num_metadata is their number. *)
Theorem C67_table : forall s es, Forall2 entry_of (collect_metadata s) es -> c_table (metadata_table s) = Some (es ++ [end_entry], List.length (collect_metadata s)).
Proof.
  intros s es H. unfold c_table. rewrite (table_toks s es H). set (n := List.length (collect_metadata s)). destruct (number_of n) as (_ & _ & _ & V). unfold head_toks.
  unfold bind at 1. cbn [app]. unfold bind at 1. unfold is_word at 1. destruct (list_eq_dec N.eq_dec (codes "struct") (codes "struct")) as [_|X]; [|contradiction].
  unfold bind at 1. unfold is_word at 1. destruct (list_eq_dec N.eq_dec (codes "metadata_table_struct") (codes "metadata_table_struct")) as [_|X]; [|contradiction].
  unfold bind at 1. unfold is_word at 1. destruct (list_eq_dec N.eq_dec (codes "metadata_table") (codes "metadata_table")) as [_|X]; [|contradiction].
  unfold bind at 1, is_sym at 1. rewrite N.eqb_refl. unfold bind at 1, is_sym at 1. rewrite N.eqb_refl. unfold bind at 1, is_sym at 1. rewrite N.eqb_refl. unfold bind at 1, is_sym at 1. rewrite N.eqb_refl.
  rewrite entries_read.
  2:{ apply Nat.lt_lt_succ_r. rewrite app_length. apply Nat.lt_le_trans with (S (List.length es)); [lia|]. rewrite app_length. cbn [List.length].
      assert (List.length es <= List.length (flat_map (fun e => row_toks e ++ [TSym 44%N]) es)); [|lia]. clear. induction es as [|e es IH]; [auto|]. cbn [flat_map]. rewrite !app_length. cbn [List.length]. lia. }
  unfold bind at 1. unfold num_toks. unfold bind at 1, is_sym at 1. rewrite N.eqb_refl. unfold bind at 1. unfold is_word at 1. destruct (list_eq_dec N.eq_dec (codes "int") (codes "int")) as [_|X]; [|contradiction].
  unfold bind at 1. unfold is_word at 1. destruct (list_eq_dec N.eq_dec (codes "num_metadata") (codes "num_metadata")) as [_|X]; [|contradiction].
  unfold bind at 1, is_sym at 1. rewrite N.eqb_refl. rewrite V. reflexivity.
Qed.
Print Assumptions C67_table.
(** an instrument with metadata of a component type, of an instance and of the instrument *)
Definition zero3 : Expr.node := Expr.NVal (Expr.PStr "0") Expr.DInt Expr.OValue.
Definition i0 (n : string) (t : ctype) (ms : list meta) : inst := mkInst n t (zero3, zero3, zero3) None (zero3, zero3, zero3) None [] [] false false None None None [] [] ms.
Definition wide : string := String "a" (String """" (String "\" (String "010" "b"))).
Definition sample : instr :=
  mkInstr "inst" [] [from_tokens "inst" (WStr (String dq ("text/plain" +++ String dq ""))) (WId "note") wide] [i0 "arm" (mkCtype "Arm" [] [] [from_tokens "Arm" (WId "json") (WId "a") "{}"] true) []] [] [] [] [] [] [] [].
Example C67_table_nonvacuous : Forall2 entry_of (collect_metadata sample) [(codes "Arm", codes "a", codes "json", codes "{}"); (codes "inst", codes "note", codes "text/plain", codes wide)] /\
  c_table (metadata_table sample) = Some ([(codes "Arm", codes "a", codes "json", codes "{}"); (codes "inst", codes "note", codes "text/plain", codes wide); end_entry], 2).
Proof.
  assert (F : Forall2 entry_of (collect_metadata sample) [(codes "Arm", codes "a", codes "json", codes "{}"); (codes "inst", codes "note", codes "text/plain", codes wide)]) by (repeat constructor).
  split; [exact F|]. exact (C67_table _ _ F).
Qed.

Lemma ordinary_reads s : ordinary s -> between_quotes s (codes s).
Proof.
  intros [H T]. apply itself_literal; [|exact T]. apply forallb_forall. intros c C. unfold codes in C. apply in_map_iff in C as (a & <- & A). destruct (H a A) as (R & Q & B). unfold itself.
  rewrite (proj2 (N.leb_le _ _) (proj1 R)), (proj2 (N.ltb_lt _ _) (proj2 R)). cbn [andb]. apply andb_true_intro.
  split; apply negb_true_iff, N.eqb_neq; intro E; [apply Q|apply B]; rewrite <- (ascii_N_embedding a), E; reflexivity.
Qed.
Lemma value_reads v : (forall c, In c (list_ascii_of_string v) -> In (N_of_ascii c) [9; 10; 13]%N \/ (32 <= N_of_ascii c < 127)%N) -> trigraph_free (codes v) = true -> c_reads (literal (codes v)) = Some (codes v).
Proof.
  intros H T. apply Properties_CText.C45_ascii_text_survives; [|now apply Properties_CText.no_trigraph_free]. apply Forall_forall. intros c C. unfold codes in C. apply in_map_iff in C as (a & <- & A).
  destruct (H a A) as [[E|[E|[E|[]]]]|R]; rewrite <- ?E; auto 10.
Qed.
Lemma ends_contains p s : endswith p s = true -> contains p s = true.
Proof.
  induction s as [|c s IH]; cbn [endswith contains]; intro H.
  - rewrite orb_false_r in H. apply String.eqb_eq in H as ->. reflexivity.
  - apply orb_prop in H as [H|H]; [|rewrite (IH H); apply orb_true_r]. apply String.eqb_eq in H as ->. apply orb_true_intro. left. apply startswith_spec. exists "". generalize (String c s) as t. clear. induction t as [|x t IH]; [reflexivity|]. cbn. now f_equal.
Qed.
(** What an instrument or component file says is what C reads: METADATA, a type, a name without a blank, and the text of a block, all of ordinary characters. *)
Theorem C67_from_file : forall source mime name block, ordinary source -> ordinary (word_text mime) -> ordinary (word_text name) -> has_char " " (word_text name) = false -> contains "%}" block = false ->
  (forall c, In c (list_ascii_of_string block) -> In (N_of_ascii c) [9; 10; 13]%N \/ (32 <= N_of_ascii c < 127)%N) -> trigraph_free (codes block) = true ->
  entry_of (from_tokens source mime name block) (codes source, codes (word_text name), codes (word_text mime), codes block).
Proof.
  intros source mime name block S' M Nm B E V T. unfold from_tokens, partial_from_tokens, quoted_name, bare_value. rewrite B. cbn [andb].
  destruct (endswith "%}" block) eqn:X; [rewrite (ends_contains _ _ X) in E; discriminate|]. rewrite andb_false_r. cbn [entry_of m_source m_name m_mime m_value].
  repeat split; [now apply ordinary_reads|now apply ordinary_reads|now apply ordinary_reads|now apply value_reads].
Qed.
Print Assumptions C67_from_file.
Example C67_from_file_nonvacuous : entry_of (from_tokens "inst" (WStr (String dq ("text/plain" +++ String dq ""))) (WId "note") wide) (codes "inst", codes "note", codes "text/plain", codes wide).
Proof.
  apply (C67_from_file "inst" (WStr (String dq ("text/plain" +++ String dq ""))) (WId "note") wide); try reflexivity; try (split; [|reflexivity]); cbn; intros c H;
    repeat (destruct H as [<-|H]; [cbn; try (split; [lia|split; discriminate]); first [right; lia|left; tauto]|]); destruct H.
Qed.

(** A value given in Python with the marks of a block is the block between them. *)
Theorem C67_marked_value : forall source mime name block, ordinary source -> ordinary (word_text mime) -> ordinary (word_text name) -> has_char " " (word_text name) = false ->
  (forall c, In c (list_ascii_of_string block) -> In (N_of_ascii c) [9; 10; 13]%N \/ (32 <= N_of_ascii c < 127)%N) -> trigraph_free (codes block) = true ->
  entry_of (from_tokens source mime name ("%{" +++ block +++ "%}")) (codes source, codes (word_text name), codes (word_text mime), codes block).
Proof.
  intros source mime name block S' M Nm B V T. unfold from_tokens, partial_from_tokens, quoted_name, bare_value. rewrite B. cbn [andb].
  assert (X : startswith "%{" ("%{" +++ block +++ "%}") = true) by (apply startswith_spec; eauto).
  assert (Y : endswith "%}" ("%{" +++ block +++ "%}") = true) by (apply endswith_spec; exists ("%{" +++ block); now rewrite string_app_assoc).
  rewrite X, Y. cbn [andb].
  assert (Z : String.substring 2 (String.length ("%{" +++ block +++ "%}") - 4) ("%{" +++ block +++ "%}") = block).
  { rewrite !string_app_length. cbn [String.length]. replace (2 + (String.length block + 2) - 4) with (String.length block) by lia. cbn [append String.substring].
    clear. induction block as [|c b IH]; [reflexivity|]. cbn. now rewrite IH. }
  rewrite Z. cbn [entry_of m_source m_name m_mime m_value].
  repeat split; [now apply ordinary_reads|now apply ordinary_reads|now apply ordinary_reads|now apply value_reads].
Qed.
Print Assumptions C67_marked_value.
Example C67_marked_value_example : m_value (from_tokens "inst" (WId "text") (WId "note") "%{ a %}") = " a ".
Proof. reflexivity. Qed.

Lemma span_split p : forall l w q, span p l = (w, q) -> l = w ++ q /\ forallb p w = true /\ match q with c :: _ => p c = false | [] => True end.
Proof.
  induction l as [|c l IH]; intros w q H; cbn [span] in H; [injection H as <- <-; auto|]. destruct (p c) eqn:P.
  - destruct (span p l) as [a b]. injection H as <- <-. destruct (IH a b eq_refl) as (-> & F & R). cbn. rewrite P. auto.
  - injection H as <- <-. auto.
Qed.
Lemma entries_fail es a w : forall f r, c_entries f (flat_map (fun e => row_toks e ++ [TSym 44%N]) es ++ [TSym 123%N; TLit a; TSym 44%N; TLit []; TWord w] ++ r) = None.
Proof.
  induction es as [|e es IH]; intros f r; (destruct f as [|f]; [reflexivity|]).
  - reflexivity.
  - destruct e as [[[a' b] c] d]. cbn [flat_map row_toks app]. cbn [c_entries is_sym]. change (123 =? 125)%N with false. cbv iota. unfold c_entry. cbn - [c_entries flat_map row_toks app]. specialize (IH f r). cbn [app] in IH |- *. rewrite IH. reflexivity.
Qed.
Lemma inner_text m : word_text (WStr (String dq (m +++ String dq ""))) = m.
Proof.
  unfold word_text. cbn [String.length substring]. rewrite string_app_length. cbn [String.length]. replace (S (String.length m + 1) - 2) with (String.length m) by lia.
  induction m as [|x m IH]; [reflexivity|]. cbn [String.length append substring]. now rewrite IH.
Qed.
(** A name with a blank gets quotes, which are written between quotes: the table with one such name is no C, whatever else is in it. *)
Theorem C67_name_with_blank_refuted : forall s before after source mime c n block es a,
  collect_metadata s = before ++ from_tokens source mime (WStr (String dq (String c n +++ String dq ""))) block :: after -> Forall2 entry_of before es -> between_quotes source a ->
  wordc (N_of_ascii c) = true -> has_char " " n = true -> c_table (metadata_table s) = None.
Proof.
  intros s before after source mime c n block es a E F A W B. unfold c_table, c_toks, metadata_table. rewrite E, flat_map_app. cbn [flat_map].
  assert (Nm : word_text (WStr (String dq (String c n +++ String dq ""))) = String c n).
  { apply inner_text. }
  assert (Qn : m_name (from_tokens source mime (WStr (String dq (String c n +++ String dq ""))) block) = String dq (String c n +++ String dq "")).
  { unfold from_tokens, partial_from_tokens. cbn [m_name]. rewrite Nm. unfold quoted_name. cbn [has_char first_is]. rewrite B, orb_true_r. destruct (Ascii.eqb_spec c dq) as [->|]; [discriminate W|]. reflexivity. }
  set (m := from_tokens source mime _ block) in *. assert (Sm : m_source m = source) by reflexivity.
  set (num := List.length (before ++ m :: after)). set (tail := last_line ++ _).
  assert (G : exists w q, goes (trigraphs (head_line ++ nl ++ (flat_map (fun m => one_line m ++ nl) before ++ (one_line m ++ nl) ++ flat_map (fun m => one_line m ++ nl) after) ++ tail))
     (head_toks ++ flat_map (fun e => row_toks e ++ [TSym 44%N]) es ++ [TSym 123%N; TLit a; TSym 44%N; TLit []; TWord w]) q).
  { rewrite <- !app_assoc. rewrite one_line_shape. rewrite Qn, Sm.
    set (rest := 34%N :: codes ", " ++ 34%N :: codes (m_mime m) ++ _).
    assert (C63 : N_of_ascii c <> 63%N) by (intro X; rewrite X in W; discriminate W).
    change (codes (String dq (String c n +++ String dq ""))) with ([34%N] ++ codes (String c n +++ String dq "")). rewrite codes_app. change (codes (String c n)) with ([N_of_ascii c] ++ codes n). rewrite <- !app_assoc. change (codes (String dq "")) with [34%N].
    set (rest2 := [34%N] ++ rest).
    destruct (span wordc (N_of_ascii c :: trigraphs (codes n ++ rest2))) as [w q] eqn:Sp. exists w, q.
    assert (Wn : w <> []). { cbn [span] in Sp. rewrite W in Sp. destruct (span wordc (trigraphs (codes n ++ rest2))). injection Sp as <- _. discriminate. }
    apply span_split in Sp as (Sp & Fw & Rw).
    eapply goes_trans; [apply goes_head|]. eapply goes_trans; [apply goes_lines; exact F|]. rewrite trig_skip by no63. cbn [app].
    eapply (goes_trans _ []); [now apply goes_blank|]. eapply (goes_trans _ [TSym 123%N] _ _ _); [now apply goes_sym|]. eapply (goes_trans _ [TLit a] _ _ _ (goes_quoted _ _ _ A)). eapply (goes_trans _ [TSym 44%N] _ _ _ (goes_comma _)).
    change (34%N :: 34%N :: N_of_ascii c :: codes n ++ rest2) with ([34%N; 34%N; N_of_ascii c] ++ codes n ++ rest2). rewrite trig_skip by (repeat (constructor; [first [discriminate|exact C63]|]); constructor).
    change ([34%N; 34%N; N_of_ascii c] ++ ?r) with (34%N :: [34%N] ++ N_of_ascii c :: r). eapply (goes_trans _ [TLit []] _ _ _); [now apply goes_lit|]. rewrite Sp. now apply goes_word. }
  destruct G as (w & q & G). destruct (G _ (Nat.lt_succ_diag_r _)) as (f & _ & ->). destruct (toks f q) as [ts|]; [|reflexivity]. cbn [option_map bind]. unfold head_toks.
  rewrite <- !app_assoc. unfold bind at 1. cbn [app]. unfold is_word at 1. destruct (list_eq_dec N.eq_dec (codes "struct") (codes "struct")) as [_|X]; [|contradiction].
  unfold bind at 1. unfold is_word at 1. destruct (list_eq_dec N.eq_dec (codes "metadata_table_struct") (codes "metadata_table_struct")) as [_|X]; [|contradiction].
  unfold bind at 1. unfold is_word at 1. destruct (list_eq_dec N.eq_dec (codes "metadata_table") (codes "metadata_table")) as [_|X]; [|contradiction].
  unfold bind at 1, is_sym at 1. rewrite N.eqb_refl. unfold bind at 1, is_sym at 1. rewrite N.eqb_refl. unfold bind at 1, is_sym at 1. rewrite N.eqb_refl. unfold bind at 1, is_sym at 1. rewrite N.eqb_refl.
  pose proof (entries_fail es a w) as K. cbn [app] in K. rewrite K. reflexivity.
Qed.
Print Assumptions C67_name_with_blank_refuted.
Example C67_name_with_blank_nonvacuous : c_table (metadata_table (mkInstr "inst" [] [from_tokens "inst" (WId "json") (WStr (String dq ("my name" +++ String dq ""))) "{}"] [] [] [] [] [] [] [] [])) = None.
Proof. eapply (C67_name_with_blank_refuted _ [] [] "inst" (WId "json") "m" "y name" "{}" []); [reflexivity|constructor| |reflexivity|reflexivity]. reflexivity. Qed.

(** The metadata of a component type carry the name of the type: for any number of instances of it the table has that many equal elements, none with the name of an instance. *)
Theorem C67_instances_alike_refuted : forall s m e, (forall i, In i (s_comps s) -> ct_meta (i_type i) = [m] /\ i_meta i = []) -> s_meta s = [] -> entry_of m e ->
  c_table (metadata_table s) = Some (repeat e (List.length (s_comps s)) ++ [end_entry], List.length (s_comps s)).
Proof.
  intros s m e H N E. assert (C : collect_metadata s = repeat m (List.length (s_comps s))).
  { unfold collect_metadata. rewrite N, app_nil_r. revert H. generalize (s_comps s). induction l as [|i l IH]; intro H; [reflexivity|]. cbn [flat_map List.length repeat]. rewrite IH by (intros j J; apply H; now right).
    destruct (H i (or_introl eq_refl)) as [A B]. unfold inst_collect. now rewrite A, B. }
  rewrite (C67_table s (repeat e (List.length (s_comps s)))).
  - now rewrite C, repeat_length.
  - rewrite C. clear - E. induction (List.length (s_comps s)); cbn; constructor; auto.
Qed.
Print Assumptions C67_instances_alike_refuted.
Example C67_instances_alike_nonvacuous : let t := mkCtype "Arm" [] [] [from_tokens "Arm" (WId "json") (WId "a") "{}"] true in
  c_table (metadata_table (mkInstr "inst" [] [] [i0 "first" t []; i0 "second" t []] [] [] [] [] [] [] [])) = Some ([(codes "Arm", codes "a", codes "json", codes "{}"); (codes "Arm", codes "a", codes "json", codes "{}"); end_entry], 2).
Proof.
  intro t. apply (C67_instances_alike_refuted (mkInstr "inst" [] [] [i0 "first" t []; i0 "second" t []] [] [] [] [] [] [] []) (from_tokens "Arm" (WId "json") (WId "a") "{}") (codes "Arm", codes "a", codes "json", codes "{}")); [|reflexivity|repeat constructor].
  intros i [<-|[<-|[]]]; split; reflexivity.
Qed.
