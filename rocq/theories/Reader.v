(** Reading of component definitions by a reader. src/mccode_antlr/reader/reader.py 113-141, src/mccode_antlr/comp/visitor.py *)
From Coq Require Import List String Bool Arith Lia.
From Verif Require Import PyStr.
Import ListNotations.
Local Open Scope string_scope.
Local Open Scope list_scope.
Local Open Scope nat_scope.

Section Reader.
(** the contents of a Comp object *)
Variable comp : Type.
(** a Comp object: its identity and its contents *)
Definition obj : Type := nat * comp.
(** What visiting the parsed component file does, as far as the reader is concerned: it may ask the reader for other components
    (comp/visitor.py 32 DEFINE ... COPY, 55, 150, 160, ... block COPY), add a C flag (136-139), raise, or end with a definition.
    What it asks next may depend on the answers. *)
Inductive prog :=
| Done (c : comp)
| Fail
| Need (n : string) (k : obj -> prog)
| Flag (f : string) (k : prog).
(** the text of the file the registries have for a component (reader.py 119), None: it is not found *)
Variable contents : string -> option string.
(** grammar and visitor: what a text does *)
Variable parse : string -> string -> prog.

(** the reader: self.components in order of insertion, self.c_flags, and (not in the code) the list of all files read so far *)
Record state := mkSt { dict : list (string * obj); flags : list string; log : list string }.
(** self.components.get(name), reader/reader.py:113-136 *)
Definition lookup (d : list (string * obj)) (n : string) : option obj := option_map snd (find (fun kv => fst kv =?s n) d).
(** self.components[name] = comp, reader/reader.py:113-136 *)
Fixpoint store (d : list (string * obj)) (n : string) (o : obj) : list (string * obj) :=
  match d with [] => [(n, o)] | (k, v) :: t => if k =?s n then (k, o) :: t else (k, v) :: store t n o end.

(** how a request ends; TooDeep stands for RecursionError *)
Inductive outcome (A : Type) := Got (a : A) | Raised | TooDeep.
Arguments Got {A} _.
Arguments Raised {A}.
Arguments TooDeep {A}.

(** visitor.visitProg(tree) with the reader's answers *)
Fixpoint run (ask : string -> state -> outcome obj * state) (p : prog) (s : state) : outcome comp * state :=
  match p with
  | Done c => (Got c, s)
  | Fail => (Raised, s)
  | Flag f k => run ask k (mkSt (dict s) (flags s ++ [f]) (log s))
  | Need n k => match ask n s with
                | (Got o, s') => run ask (k o) s'
                | (Raised, s') => (Raised, s')
                | (TooDeep, s') => (TooDeep, s')
                end
  end.
(** reader.py 138-141 get_component with 113-136 add_component; [fuel] is the depth Python allows.
    The new object's identity is the number of files read before it. *)
Fixpoint get (fuel : nat) (n : string) (s : state) : outcome obj * state :=
  match lookup (dict s) n with
  | Some o => (Got o, s)
  | None =>
    match fuel with
    | 0 => (TooDeep, s)
    | S f =>
      match contents n with
      | None => (Raised, s)
      | Some text =>
        match run (get f) (parse n text) (mkSt (dict s) (flags s) (log s ++ [n])) with
        | (Got c, s') => let o := (List.length (log s), c) in (Got o, mkSt (store (dict s') n o) (flags s') (log s'))
        | (Raised, s') => (Raised, s')
        | (TooDeep, s') => (TooDeep, s')
        end
      end
    end
  end.
(** requests made one after the other; a request that raises does not stop the caller *)
Fixpoint requests (fuel : nat) (ns : list string) (s : state) : list (outcome obj) * state :=
  match ns with
  | [] => ([], s)
  | n :: t => let (o, s') := get fuel n s in let (os, s'') := requests fuel t s' in (o :: os, s'')
  end.
(** a new reader, reader/reader.py:40-49 *)
Definition empty := mkSt [] [] [].

(** * Facts *)
Lemma lookup_store d n o m : lookup (store d n o) m = if n =?s m then Some o else lookup d m.
Proof.
  induction d as [|[k v] d IH]; unfold lookup in *; cbn [store find fst].
  - destruct (n =?s m); reflexivity.
  - destruct (String.eqb_spec k n) as [->|N]; cbn [find fst].
    + destruct (n =?s m); reflexivity.
    + destruct (String.eqb_spec k m) as [->|]; [|exact IH]. destruct (String.eqb_spec n m); [congruence|reflexivity].
Qed.
(** what a program does when only the components already there are used: the first unknown component it asks for *)
Fixpoint stuck (d : list (string * obj)) (p : prog) : option string :=
  match p with
  | Done _ | Fail => None
  | Flag _ k => stuck d k
  | Need n k => match lookup d n with Some o => stuck d (k o) | None => Some n end
  end.
(** specification: what is in the file of a component *)
Definition prog_of (n : string) : option prog := match contents n with Some t => Some (parse n t) | None => None end.
(** every component of [l] is unknown and waits for one of [m :: l] *)
Definition waiting (d : list (string * obj)) (l : list string) (m : string) : Prop :=
  forall n, In n l -> lookup d n = None /\ exists p x, prog_of n = Some p /\ stuck d p = Some x /\ In x (m :: l).
(** specification: what was known stays known *)
Definition extends (d d' : list (string * obj)) : Prop := forall n o, lookup d n = Some o -> lookup d' n = Some o.
Lemma extends_refl d : extends d d. Proof. firstorder. Qed.
Lemma extends_trans a b c : extends a b -> extends b c -> extends a c. Proof. firstorder. Qed.
Lemma stuck_extends d d' p x : extends d d' -> stuck d p = Some x -> lookup d' x = None -> stuck d' p = Some x.
Proof.
  intros E. induction p as [| |n k IH|f k IH]; cbn; try discriminate; auto.
  intros H N. destruct (lookup d n) as [o|] eqn:L.
  - rewrite (E _ _ L). now apply IH.
  - injection H as ->. now rewrite N.
Qed.
(** a component that is being read never comes out of a nested request *)
Lemma waiting_fails fuel : forall s l n, waiting (dict s) l n -> In n l -> forall o s', get fuel n s <> (Got o, s').
Proof.
  induction fuel as [|fuel IH]; intros s l n W I o s'; cbn [get].
  - destruct (W n I) as [-> _]. discriminate.
  - destruct (W n I) as (-> & p & x & P & St & Ix). unfold prog_of in P. destruct (contents n) as [t|]; [|discriminate]. injection P as P. rewrite P.
    assert (Ix' : In x l) by (destruct Ix as [<-|]; assumption).
    assert (Wx : waiting (dict s) l x).
    { intros z Iz. destruct (W z Iz) as (A & p' & y & B & C & D). split; [exact A|]. exists p', y. repeat split; auto.
      destruct D as [<-|D]; [right; exact I|right; exact D]. }
    set (s0 := mkSt (dict s) (flags s) (log s ++ [n])).
    assert (H : forall q s1, dict s1 = dict s -> stuck (dict s) q = Some x -> forall c s2, run (get fuel) q s1 <> (Got c, s2)).
    { induction q as [c0| |m k IHq|f k IHq]; intros s1 E1 S1 c s2; cbn [stuck run] in *; try discriminate.
      - destruct (lookup (dict s) m) as [om|] eqn:Lm.
        + assert (G : get fuel m s1 = (Got om, s1)) by (destruct fuel; cbn [get]; rewrite E1, Lm; reflexivity). rewrite G. now apply IHq.
        + injection S1 as ->. destruct (get fuel x s1) as [[om| |] sx] eqn:G; try discriminate.
          exfalso. refine (IH s1 l x _ Ix' _ _ G). now rewrite E1.
      - apply IHq; [exact E1|exact S1]. }
    specialize (H p s0 eq_refl St). destruct (run (get fuel) p s0) as [[c| |] s1]; try discriminate. intro Q. now apply (H c s1).
Qed.

(** the log grows, by components that were unknown; on success by exactly those that are known afterwards *)
Definition grows (s s' : state) (l : list string) : Prop :=
  log s' = log s ++ l /\ NoDup l /\ (forall n, In n l -> lookup (dict s) n = None)
  /\ (forall n, In n l -> exists o, lookup (dict s') n = Some o)
  /\ (forall n o, lookup (dict s') n = Some o -> lookup (dict s) n = Some o \/ In n l).
Lemma get_known fuel n s o : lookup (dict s) n = Some o -> get fuel n s = (Got o, s).
Proof. intro H. destruct fuel; cbn; now rewrite H. Qed.
Lemma app_nil_inv_tail {A} (a b : list A) : a ++ b = a -> b = [].
Proof. intro H. rewrite <- (app_nil_r a) in H at 2. now apply app_inv_head in H. Qed.

(** [q] is what is left of [p] after answers taken from [d] *)
Inductive reach (d : list (string * obj)) (p : prog) : prog -> Prop :=
| reach_start : reach d p p
| reach_need n k o : reach d p (Need n k) -> lookup d n = Some o -> reach d p (k o)
| reach_flag f k : reach d p (Flag f k) -> reach d p k.
Lemma reach_extends d d' p q : extends d d' -> reach d p q -> reach d' p q.
Proof. intros E. induction 1; [constructor|eapply reach_need; eauto|eapply reach_flag; eauto]. Qed.
Lemma reach_stuck d p q : reach d p q -> stuck d p = stuck d q.
Proof. induction 1 as [|n k o R IH L|f k R IH]; [reflexivity| |]; rewrite IH; cbn; [now rewrite L|reflexivity]. Qed.
Lemma grows_none s f : grows s (mkSt (dict s) f (log s)) [].
Proof. unfold grows. cbn. rewrite app_nil_r. repeat split; try constructor; try (intros ? []); auto. Qed.
Lemma grows_refl s : grows s s [].
Proof. unfold grows. rewrite app_nil_r. repeat split; try constructor; try (intros ? []); auto. Qed.
Lemma grows_trans a b c g1 g2 : extends (dict a) (dict b) -> extends (dict b) (dict c) -> grows a b g1 -> grows b c g2 -> grows a c (g1 ++ g2).
Proof.
  intros E1 E2 (L1 & D1 & U1 & K1 & N1) (L2 & D2 & U2 & K2 & N2). repeat split.
  - now rewrite L2, L1, app_assoc.
  - clear L1 L2 N1 N2. induction g1 as [|x g1 IH]; [exact D2|]. cbn. inversion D1 as [|? ? D3 D4]; subst. constructor.
    + intro I. apply in_app_or in I as [I|I]; [contradiction|]. destruct (K1 x (or_introl eq_refl)) as (o & O). rewrite (U2 x I) in O. discriminate.
    + apply IH; [exact D4|intros; apply U1; now right|intros; apply K1; now right].
  - intros n I. apply in_app_or in I as [I|I]; [now apply U1|]. destruct (lookup (dict a) n) as [o|] eqn:E; [|reflexivity].
    apply E1 in E. rewrite (U2 n I) in E. discriminate.
  - intros n I. apply in_app_or in I as [I|I]; [|now apply K2]. destruct (K1 n I) as (o & O). exists o. now apply E2.
  - intros n o H. destruct (N2 n o H) as [H1|I]; [|right; apply in_or_app; now right].
    destruct (N1 n o H1) as [H2|I]; [now left|right; apply in_or_app; now left].
Qed.

(** the main invariant: extension, no overwriting, and the bookkeeping of the log on success.  [l] are the components being read. *)
Lemma get_invariant fuel : forall s l n r s', waiting (dict s) l n -> get fuel n s = (r, s') ->
  extends (dict s) (dict s') /\ (forall z, In z l -> lookup (dict s') z = None)
  /\ (forall o, r = Got o -> lookup (dict s') n = Some o /\ exists g, grows s s' g).
Proof.
  induction fuel as [|fuel IH]; intros s l n r s' W G.
  - cbn [get] in G. destruct (lookup (dict s) n) as [o|] eqn:L; injection G as <- <-.
    + split; [apply extends_refl|]. split; [intros z Iz; now apply W|]. intros o' [= <-]. split; [exact L|]. exists []. apply grows_refl.
    + split; [apply extends_refl|]. split; [intros z Iz; now apply W|]. discriminate.
  - destruct (lookup (dict s) n) as [o|] eqn:L.
    { rewrite (get_known (S fuel) n s o L) in G. injection G as <- <-. split; [apply extends_refl|]. split; [intros z Iz; now apply W|].
      intros o' [= <-]. split; [exact L|]. exists []. apply grows_refl. }
    pose proof (waiting_fails (S fuel) s l n W) as F.
    assert (G0 := G). cbn [get] in G. rewrite L in G. destruct (contents n) as [t|] eqn:Ct.
    2:{ injection G as <- <-. split; [apply extends_refl|]. split; [intros z Iz; now apply W|]. discriminate. }
    (* running the program of n with n among the components being read *)
    assert (H : forall q s1 r1 s2, extends (dict s) (dict s1) -> (forall z, In z (n :: l) -> lookup (dict s1) z = None) ->
        reach (dict s1) (parse n t) q -> run (get fuel) q s1 = (r1, s2) ->
        extends (dict s1) (dict s2) /\ (forall z, In z (n :: l) -> lookup (dict s2) z = None) /\ (forall c, r1 = Got c -> exists g, grows s1 s2 g)).
    { induction q as [c| |m k IHq|f k IHq]; intros s1 r1 s2 E1 N1 K1 R; cbn [run] in R.
      - injection R as <- <-. split; [apply extends_refl|]. split; [exact N1|]. intros c' _. exists []. apply grows_refl.
      - injection R as <- <-. split; [apply extends_refl|]. split; [exact N1|]. discriminate.
      - destruct (lookup (dict s1) m) as [om|] eqn:Lm.
        + rewrite (get_known fuel m s1 om Lm) in R. apply (IHq om s1 r1 s2 E1 N1); [|exact R]. exact (reach_need _ _ _ _ _ K1 Lm).
        + assert (W1 : waiting (dict s1) (n :: l) m).
          { intros z Iz. split; [now apply N1|]. destruct Iz as [<-|Iz].
            - exists (parse n t), m. unfold prog_of. rewrite Ct. repeat split; [|now left].
              rewrite (reach_stuck _ _ _ K1). cbn [stuck]. now rewrite Lm.
            - destruct (W z Iz) as (_ & p & x & B & C & D). exists p, x. split; [exact B|]. split.
              + refine (stuck_extends _ _ _ _ E1 C _). apply N1. destruct D as [<-|D]; [now left|now right].
              + right. destruct D as [<-|D]; [now left|now right]. }
          destruct (get fuel m s1) as [rm sm] eqn:Gm. destruct (IH s1 (n :: l) m rm sm W1 Gm) as (Em & Nm & Sm).
          destruct rm as [om| |]; [|injection R as <- <-; split; [exact Em|split; [exact Nm|discriminate]]..].
          destruct (Sm om eq_refl) as (Lm' & g1 & G1).
          destruct (IHq om sm r1 s2 (extends_trans _ _ _ E1 Em) Nm) as (E2 & N2 & S2); [|exact R|].
          * exact (reach_need _ _ _ _ _ (reach_extends _ _ _ _ Em K1) Lm').
          * split; [exact (extends_trans _ _ _ Em E2)|]. split; [exact N2|]. intros c Hc. destruct (S2 c Hc) as (g2 & G2).
            exists (g1 ++ g2). exact (grows_trans _ _ _ _ _ Em E2 G1 G2).
      - destruct (IHq (mkSt (dict s1) (flags s1 ++ [f]) (log s1)) r1 s2 E1 N1 (reach_flag _ _ _ _ K1) R) as (A & B & C).
        split; [exact A|]. split; [exact B|]. intros c Hc. destruct (C c Hc) as (g & Hg). exists g. exact Hg. }
    set (s0 := mkSt (dict s) (flags s) (log s ++ [n])) in *.
    assert (N0 : forall z, In z (n :: l) -> lookup (dict s0) z = None) by (intros z [<-|Iz]; [exact L|now apply W]).
    destruct (run (get fuel) (parse n t) s0) as [rc s2] eqn:R.
    destruct (H (parse n t) s0 rc s2 (extends_refl _) N0 (reach_start _ _) R) as (E2 & N2 & S2). cbn [s0 dict] in E2.
    destruct rc as [c| |].
    + injection G as <- <-. destruct (S2 c eq_refl) as (g & Lg & Dg & Ug & Kg & Ng). cbn [dict log].
      assert (Nn : lookup (dict s2) n = None) by (apply N2; now left).
      assert (Es : extends (dict s) (store (dict s2) n (List.length (log s), c))).
      { intros x o Hx. rewrite lookup_store. destruct (String.eqb_spec n x) as [<-|]; [congruence|now apply E2]. }
      split; [exact Es|]. split.
      * intros z Iz. rewrite lookup_store. destruct (String.eqb_spec n z) as [<-|]; [exfalso; exact (F Iz _ _ G0)|]. apply N2. now right.
      * intros o [= <-]. rewrite lookup_store, String.eqb_refl. split; [reflexivity|]. exists (n :: g). unfold grows. cbn [dict log].
        split; [rewrite Lg; cbn [s0 log]; now rewrite <- app_assoc|]. split; [|split; [|split]].
        -- constructor; [|exact Dg]. intro I. destruct (Kg n I) as (o & O). congruence.
        -- intros x [<-|I]; [exact L|now apply (Ug x I)].
        -- intros x [<-|I]; [rewrite lookup_store, String.eqb_refl; eauto|]. destruct (Kg x I) as (o & O). exists o. rewrite lookup_store.
           destruct (String.eqb_spec n x) as [<-|]; [congruence|exact O].
        -- intros x o. rewrite lookup_store. destruct (String.eqb_spec n x) as [<-|]; [intros _; right; now left|].
           intro Hx. destruct (Ng x o Hx) as [Hy|I]; [now left|right; now right].
    + injection G as <- <-. split; [exact E2|]. split; [intros z Iz; apply N2; now right|discriminate].
    + injection G as <- <-. split; [exact E2|]. split; [intros z Iz; apply N2; now right|discriminate].
Qed.

Lemma get_top fuel s n r s' : get fuel n s = (r, s') ->
  extends (dict s) (dict s') /\ (forall o, r = Got o -> lookup (dict s') n = Some o /\ exists g, grows s s' g).
Proof. intro G. destruct (get_invariant fuel s [] n r s' (fun _ (F : In _ []) => match F with end) G) as (A & _ & B). auto. Qed.
End Reader.
Arguments Got {_} _.
Arguments Raised {_}.
Arguments TooDeep {_}.
Arguments Done {_} _.
Arguments Fail {_}.
Arguments Need {_} _ _.
Arguments Flag {_} _ _.
Arguments mkSt {_} _ _ _.
Arguments dict {_} _.
Arguments flags {_} _.
Arguments log {_} _.
Arguments lookup {_} _ _.
Arguments empty {_}.
