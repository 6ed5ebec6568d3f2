(** C86: the code of a component type stands in the C source once, whole and translated, however many instances use it. *)
From Coq Require Import String List Bool Arith Lia.
From Verif Require Import TypeCode.
Import ListNotations.
Local Open Scope string_scope.
Local Open Scope list_scope.

(** * What is meant *)

(** the types in the order of their first use, each once *)
Definition in_order_of_first_use (l ts : list nat) : Prop :=
  NoDup ts /\ (forall a, In a ts <-> In a l)
  /\ (forall p a q b r, ts = p ++ a :: q ++ b :: r -> exists u v, l = u ++ a :: v /\ ~ In b u).
(** what is written in the file of a component *)
Definition plain_block (b : block) : string * string := (b_where b, b_source b).
(** see above *)
Definition plain (t : ctype) :=
  (t_name t, t_rest t, [map plain_block (t_share t); map plain_block (t_user t); map plain_block (t_declare t); map plain_block (t_initialize t);
                        map plain_block (t_trace t); map plain_block (t_save t); map plain_block (t_final t); map plain_block (t_display t)]).
(** the sections with code *)
Definition sections : list (ctype -> list block) := [t_share; t_user; t_declare; t_initialize; t_trace; t_save; t_final; t_display].
(** all code of a type *)
Definition has_block (t : ctype) (b : block) : Prop := exists get, In get sections /\ In b (get t).
(** the instances refer to components that exist; those with the same text are one object *)
Definition one_object (h : heap) (l : list nat) : Prop :=
  (forall a, In a l -> exists t, nth_error h a = Some t)
  /\ (forall a b t u, In a l -> In b l -> nth_error h a = Some t -> nth_error h b = Some u -> plain t = plain u -> a = b).

Section Handle.
Variable handle : string -> string -> option string.

(** all code of the used types can be translated *)
Definition can_translate (h : heap) (l : list nat) : Prop :=
  forall a t b, In a l -> nth_error h a = Some t -> has_block t b -> handle (t_name t) (b_source b) <> None.
(** texts are the translations of blocks *)
Definition translation (t : ctype) (bs : list block) (texts : list string) : Prop := Forall2 (fun b s => handle (t_name t) (b_source b) = Some s) bs texts.
(** the types with code in a section *)
Definition with_code (get : ctype -> list block) (ts : list ctype) : list ctype := filter (fun t => match get t with [] => false | _ :: _ => true end) ts.
(** the functions of the types, a kind after the other *)
Definition functions_of (ts : list ctype) : list (string * (ctype -> list block) * ctype) :=
  flat_map (fun k => map (fun t => (fst k, snd k, t)) (with_code (snd k) ts))
    [("initialize", t_initialize); ("trace", t_trace); ("save", t_save); ("finally", t_final); ("display", t_display)].
(** what has to be written for types *)
Definition right_output (ts : list ctype) (o : output) : Prop :=
  Forall2 (fun t e => fst e = t_name t /\ translation t (t_share t) (snd e)) (with_code t_share ts) (o_share o)
  /\ o_structs o = map t_name ts
  /\ Forall2 (fun f e => fst e = (fst (fst f), t_name (snd f)) /\ translation (snd f) (snd (fst f) (snd f)) (snd e)) (functions_of ts) (o_functions o).

(** * Lists and objects *)

Lemma all_some_in {A} (l : list (option A)) : In None l -> all_some l = None.
Proof.
  induction l as [|[x|] r IH]; cbn [all_some In]; [intros [] | | reflexivity]. intros [E|E]; [discriminate|]. rewrite (IH E). reflexivity.
Qed.
Lemma all_some_forall2 {A B} (f : A -> option B) l r : Forall2 (fun x y => f x = Some y) l r -> all_some (map f l) = Some r.
Proof. induction 1 as [|x y l r E _ IH]; [reflexivity|]. cbn [map all_some]. rewrite E, IH. reflexivity. Qed.
Lemma forall2_all_some {A B} (f : A -> option B) l r : all_some (map f l) = Some r -> Forall2 (fun x y => f x = Some y) l r.
Proof.
  revert r; induction l as [|x l IH]; intros r E; cbn [map all_some] in E; [injection E as <-; constructor|].
  destruct (f x) as [y|] eqn:F; [|discriminate]. destruct (all_some (map f l)) as [s|]; [|discriminate]. injection E as <-. constructor; [exact F | apply IH; reflexivity].
Qed.
Lemma all_some_total {A B} (f : A -> option B) l : (forall x, In x l -> f x <> None) -> exists r, all_some (map f l) = Some r.
Proof.
  induction l as [|x l IH]; intros A0; [exists []; reflexivity|]. cbn [map all_some]. destruct (f x) as [y|] eqn:F; [|elim (A0 x (or_introl eq_refl) F)].
  destruct IH as [r E]; [intros z Z; apply A0; right; exact Z|]. rewrite E. exists (y :: r). reflexivity.
Qed.
Lemma put_same h a t u : nth_error h a = Some u -> nth_error (put h a t) a = Some t.
Proof. revert a; induction h as [|x h IH]; intros [|a] E; try discriminate; [reflexivity|]. exact (IH a E). Qed.
Lemma put_other h a t b : a <> b -> nth_error (put h a t) b = nth_error h b.
Proof. revert a b; induction h as [|x h IH]; intros [|a] [|b] N; try reflexivity; [elim N; reflexivity|]. apply IH. intros ->. apply N. reflexivity. Qed.
Lemma put_id h a t : nth_error h a = Some t -> put h a t = h.
Proof. revert a; induction h as [|x h IH]; intros [|a] E; try discriminate; [injection E as ->; reflexivity|]. cbn [put]. rewrite (IH a E). reflexivity. Qed.

(** * Which types count as different *)

Fixpoint firsts (seen l : list nat) : list nat :=
  match l with [] => [] | a :: r => if in_dec Nat.eq_dec a seen then firsts seen r else a :: firsts (a :: seen) r end.
Lemma firsts_in seen l a : In a (firsts seen l) <-> In a l /\ ~ In a seen.
Proof.
  revert seen; induction l as [|b l IH]; intros seen; cbn [firsts In]; [tauto|]. destruct (in_dec Nat.eq_dec b seen) as [I|N].
  - rewrite IH. split; [tauto|]. intros [[<-|E] F]; [contradiction | tauto].
  - cbn [In]. rewrite IH. cbn [In]. split; [intros [<-|[E F]]; [tauto|]; split; [tauto|]; intros G; apply F; right; exact G|].
    intros [[<-|E] F]; [tauto|]. destruct (Nat.eq_dec b a) as [->|D]; [tauto|]. right. split; [exact E|]. intros [G|G]; contradiction.
Qed.
Lemma firsts_nodup seen l : NoDup (firsts seen l).
Proof.
  revert seen; induction l as [|b l IH]; intros seen; cbn [firsts]; [constructor|]. destruct (in_dec Nat.eq_dec b seen); [apply IH|].
  constructor; [|apply IH]. rewrite firsts_in. intros [_ F]. apply F. left. reflexivity.
Qed.
Lemma firsts_order l : forall seen p a q b r, firsts seen l = p ++ a :: q ++ b :: r -> exists u v, l = u ++ a :: v /\ ~ In b u.
Proof.
  induction l as [|c l IH]; intros seen p a q b r E; cbn [firsts] in E; [destruct p; discriminate|]. destruct (in_dec Nat.eq_dec c seen) as [I|N].
  - assert (B : ~ In b seen). { assert (X : In b (firsts seen l)) by (rewrite E; apply in_or_app; right; right; apply in_or_app; right; left; reflexivity). apply firsts_in in X. apply X. }
    destruct (IH _ _ _ _ _ _ E) as (u & v & -> & F). exists (c :: u), v. split; [reflexivity|]. intros [G|G]; [subst; contradiction | contradiction].
  - destruct p as [|d p]; injection E as -> E.
    + exists [], l. split; [reflexivity | intros []].
    + assert (B : b <> d). { assert (X : In b (firsts (d :: seen) l)) by (rewrite E; apply in_or_app; right; right; apply in_or_app; right; left; reflexivity). apply firsts_in in X. intros ->. apply X. left. reflexivity. }
      destruct (IH _ _ _ _ _ _ E) as (u & v & -> & F). exists (d :: u), v. split; [reflexivity|]. intros [G|G]; [subst; contradiction | contradiction].
Qed.
Lemma firsts_first_use l : in_order_of_first_use l (firsts [] l).
Proof.
  split; [apply firsts_nodup|]. split; [intros a; rewrite firsts_in; cbn; tauto|]. intros p a q b r. apply firsts_order.
Qed.
Lemma keep_firsts h l : forall seen, (forall a, In a l -> exists t, nth_error h a = Some t)
  -> (forall a b t, In a (seen ++ l) -> In b (seen ++ l) -> nth_error h a = Some t -> nth_error h b = Some t -> a = b)
  -> forall ts, Forall2 (fun a t => nth_error h a = Some t) seen ts -> keep_first h ts l = firsts seen l.
Proof.
  induction l as [|a l IH]; intros seen V I ts F; [reflexivity|]. cbn [keep_first firsts]. destruct (V a (or_introl eq_refl)) as [t T]. rewrite T.
  assert (V' : forall b, In b l -> exists t, nth_error h b = Some t) by (intros b B; apply V; right; exact B).
  assert (IN : In t ts <-> In a seen).
  { split.
    - intros X. revert F X. clear -I T. intros F. assert (G : forall s, Forall2 (fun a t => nth_error h a = Some t) s ts -> In t ts -> exists b, In b s /\ nth_error h b = Some t).
      { clear. intros s F. induction F as [|b u s us B _ IH]; intros X; [destruct X|]. destruct X as [->|X]; [exists b; split; [left; reflexivity | exact B]|].
        destruct (IH X) as (c & C & D). exists c. split; [right; exact C | exact D]. }
      intros X. destruct (G seen F X) as (b & B & E). rewrite (I a b t); [exact B | | | exact T | exact E]; apply in_or_app; [right; left; reflexivity | left; exact B].
    - intros X. clear -F X T. induction F as [|b u s us B _ IH]; [destruct X|]. destruct X as [->|X]; [left; congruence | right; exact (IH X)]. }
  destruct (in_dec type_eq_dec t ts) as [X|X]; destruct (in_dec Nat.eq_dec a seen) as [Y|Y]; try tauto.
  - apply IH; [exact V' | | exact F]. intros b c u B C. apply I; (apply in_app_or in B as [B|B] + idtac); (apply in_app_or in C as [C|C] + idtac); apply in_or_app; cbn [In]; tauto.
  - f_equal. apply IH; [exact V' | | constructor; assumption]. intros b c u B C. apply I; cbn [app In] in B, C; rewrite in_app_iff in *; cbn [In]; tauto.
Qed.
Lemma types_of h l : one_object h l -> component_types h l = firsts [] l.
Proof.
  intros [V I]. apply keep_firsts; [exact V | | constructor]. intros a b t A B T U. exact (I a b t t A B T U eq_refl).
Qed.

(** * The translation of a type *)

Definition done (t t' : ctype) : Prop :=
  t_name t' = t_name t /\ plain t' = plain t /\ translate_type handle t' = Some t'
  /\ forall get, In get sections -> exists ss, code (get t') = Some ss /\ translation t (get t) ss /\ (get t' = [] <-> get t = []).
Lemma group_done n l l' : all_some (map (translate_block handle n) l) = Some l' ->
  map plain_block l' = map plain_block l /\ all_some (map (translate_block handle n) l') = Some l'
  /\ exists ss, code l' = Some ss /\ Forall2 (fun b s => handle n (b_source b) = Some s) l ss /\ (l' = [] <-> l = []).
Proof.
  intros E. apply forall2_all_some in E. induction E as [|b b' l l' B _ (P & F & ss & C & T & N)]; [repeat split; exists []; repeat split; constructor|].
  unfold translate_block in B. destruct (handle n (b_source b)) as [s|] eqn:H; [|discriminate]. injection B as <-.
  split; [cbn [map]; rewrite P; reflexivity|]. split.
  - cbn [map all_some]. unfold translate_block at 1. cbn [b_source b_where]. rewrite H. cbn [option_map]. rewrite F. reflexivity.
  - exists (s :: ss). split; [unfold code; cbn [map all_some to_c b_translated]; unfold code in C; rewrite C; reflexivity|]. split; [constructor; assumption | split; discriminate].
Qed.
Lemma type_done t t' : translate_type handle t = Some t' -> done t t'.
Proof.
  unfold translate_type. cbn zeta.
  repeat match goal with |- context [match all_some ?l with _ => _ end] => let E := fresh "E" in destruct (all_some l) eqn:E; [apply group_done in E | discriminate] end.
  intros [= <-].
  repeat match goal with H : _ /\ _ /\ _ |- _ => let P := fresh "P" in let Q := fresh "Q" in let R := fresh "R" in destruct H as (P & Q & R) end.
  split; [reflexivity|]. split; [unfold plain; cbn [t_name t_rest t_share t_user t_declare t_initialize t_trace t_save t_final t_display]; congruence|].
  split; [unfold translate_type; cbn [t_name t_rest t_share t_user t_declare t_initialize t_trace t_save t_final t_display];
          repeat match goal with H : all_some _ = Some _ |- _ => rewrite H; clear H end; reflexivity|].
  intros get [<-|[<-|[<-|[<-|[<-|[<-|[<-|[<-|[]]]]]]]]]; cbn [t_share t_user t_declare t_initialize t_trace t_save t_final t_display]; assumption.
Qed.
Lemma type_translates t : (forall b, has_block t b -> handle (t_name t) (b_source b) <> None) -> exists t', translate_type handle t = Some t'.
Proof.
  intros H. assert (G : forall get, In get sections -> exists l, all_some (map (translate_block handle (t_name t)) (get t)) = Some l).
  { intros get I. apply all_some_total. intros b B. unfold translate_block. destruct (handle (t_name t) (b_source b)) eqn:E; [discriminate|].
    elim (H b (ex_intro _ get (conj I B)) E). }
  unfold translate_type. cbn zeta.
  destruct (G t_share) as [l1 E1]; [cbn; tauto|]. destruct (G t_user) as [l2 E2]; [cbn; tauto|]. destruct (G t_declare) as [l3 E3]; [cbn; tauto|].
  destruct (G t_initialize) as [l4 E4]; [cbn; tauto|]. destruct (G t_trace) as [l5 E5]; [cbn; tauto|]. destruct (G t_save) as [l6 E6]; [cbn; tauto|].
  destruct (G t_final) as [l7 E7]; [cbn; tauto|]. destruct (G t_display) as [l8 E8]; [cbn; tauto|].
  rewrite E1, E2, E3, E4, E5, E6, E7, E8. eexists. reflexivity.
Qed.

(** * The translation of all types *)

Lemma translate_all_other h ts x : ~ In x ts -> nth_error (fst (translate_all handle h ts)) x = nth_error h x.
Proof.
  revert h; induction ts as [|a ts IH]; intros h N; [reflexivity|]. cbn [translate_all In] in *.
  destruct (nth_error h a) as [t|] eqn:A; [|apply IH; tauto]. destruct (translate_type handle t) as [t'|]; [|reflexivity].
  rewrite IH; [apply put_other; tauto | tauto].
Qed.
Lemma translate_all_done ts : forall h, NoDup ts -> (forall a, In a ts -> exists t t', nth_error h a = Some t /\ translate_type handle t = Some t') ->
  snd (translate_all handle h ts) = true
  /\ forall a t, In a ts -> nth_error h a = Some t -> exists t', nth_error (fst (translate_all handle h ts)) a = Some t' /\ translate_type handle t = Some t'.
Proof.
  induction ts as [|a ts IH]; intros h D V; [split; [reflexivity | intros a t []]|]. inversion D as [|? ? N D']; subst.
  destruct (V a (or_introl eq_refl)) as (t & t' & A & T). cbn [translate_all]. rewrite A, T. destruct (IH (put h a t') D') as [S F].
  { intros b B. rewrite put_other; [apply V; right; exact B | intros ->; contradiction]. }
  split; [exact S|]. intros b u [<-|B] U.
  - exists t'. rewrite translate_all_other by exact N. rewrite (put_same h a t' t A). split; [reflexivity | congruence].
  - destruct (F b u B) as (u' & P & Q); [rewrite put_other; [exact U | intros ->; contradiction]|]. exists u'. split; assumption.
Qed.
Lemma translate_all_again h ts : (forall a t, In a ts -> nth_error h a = Some t -> translate_type handle t = Some t) -> translate_all handle h ts = (h, true).
Proof.
  induction ts as [|a ts IH]; intros F; [reflexivity|]. cbn [translate_all]. destruct (nth_error h a) as [t|] eqn:A.
  - rewrite (F a t (or_introl eq_refl) A), (put_id h a t A). apply IH. intros b u B. apply F. right. exact B.
  - apply IH. intros b u B. apply F. right. exact B.
Qed.

(** * What is written *)

Lemma with_code_done get ts ts' : In get sections -> Forall2 done ts ts' -> Forall2 done (with_code get ts) (with_code get ts').
Proof.
  intros I F. induction F as [|t t' ts ts' D _ IH]; [constructor|]. unfold with_code in *. cbn [filter].
  destruct D as (P & Q & Z & R) eqn:E. clear E. pose proof (R get I) as (ss & _ & _ & N).
  destruct (get t') as [|b l] eqn:G'; destruct (get t) as [|c m] eqn:G.
  - exact IH.
  - destruct N as [N _]. specialize (N eq_refl). discriminate.
  - destruct N as [_ N]. specialize (N eq_refl). discriminate.
  - constructor; [split; [|split; [|split]]; assumption | exact IH].
Qed.
Lemma codes_done get ts ts' : In get sections -> Forall2 done ts ts' -> exists r, all_some (map (fun t => code (get t)) ts') = Some r.
Proof.
  intros I F. apply all_some_total. intros t' T. induction F as [|t u ts ts' D _ IH]; [destruct T|]. destruct T as [<-|T]; [|exact (IH T)].
  destruct D as (_ & _ & _ & R). destruct (R get I) as (ss & C & _). rewrite C. discriminate.
Qed.
Lemma shared_done ts ts' : Forall2 done ts ts' -> exists s, shared_code ts' = Some s /\ Forall2 (fun t e => fst e = t_name t /\ translation t (t_share t) (snd e)) (with_code t_share ts) s.
Proof.
  intros F. apply (with_code_done t_share) in F; [|left; reflexivity]. unfold shared_code.
  change (filter _ ts') with (with_code t_share ts').
  induction F as [|t t' l l' D _ (s & E & G)]; [exists []; split; [reflexivity | constructor]|]. destruct D as (P & _ & _ & R).
  destruct (R t_share (or_introl eq_refl)) as (ss & C & T & _). exists ((t_name t, ss) :: s). cbn [map all_some]. rewrite C, E, P. split; [reflexivity|].
  constructor; [split; [reflexivity | exact T] | exact G].
Qed.
Lemma functions_done kind get ts ts' : In get sections -> Forall2 done ts ts' ->
  exists s, functions kind get ts' = Some s
    /\ Forall2 (fun f e => fst e = (fst (fst f), t_name (snd f)) /\ translation (snd f) (snd (fst f) (snd f)) (snd e)) (map (fun t => (kind, get, t)) (with_code get ts)) s.
Proof.
  intros I F. unfold functions. induction F as [|t t' ts ts' D _ (s & E & G)]; [exists []; split; [reflexivity | constructor]|].
  destruct D as (P & _ & _ & R). destruct (R get I) as (ss & C & T & N). cbn [map all_some]. destruct (all_some (map (function kind get) ts')) as [r|]; [|discriminate].
  cbn [option_map] in E. injection E as <-. unfold function at 1. unfold with_code. cbn [filter]. destruct (get t') as [|b l] eqn:G'.
  - destruct N as [N _]. rewrite (N eq_refl). exists (concat r). split; [reflexivity | exact G].
  - destruct (get t) as [|c m] eqn:G0; [destruct N as [_ N]; specialize (N eq_refl); discriminate|]. rewrite C, P. exists ((kind, t_name t, ss) :: concat r). split; [reflexivity|].
    cbn [map]. constructor; [|exact G]. cbn [fst snd]. rewrite G0. split; [reflexivity | exact T].
Qed.
Lemma write_done ts ts' : Forall2 done ts ts' -> exists o, write ts' = Some o /\ right_output ts o.
Proof.
  intros F. unfold write.
  destruct (codes_done t_share ts ts') as [r1 ->]; [cbn; tauto | exact F|]. destruct (codes_done t_declare ts ts') as [r2 ->]; [cbn; tauto | exact F|].
  destruct (codes_done t_user ts ts') as [r3 ->]; [cbn; tauto | exact F|]. destruct (shared_done ts ts' F) as (s & -> & S).
  destruct (functions_done "initialize" t_initialize ts ts') as (a & -> & A); [cbn; tauto | exact F|].
  destruct (functions_done "trace" t_trace ts ts') as (b & -> & B); [cbn; tauto | exact F|].
  destruct (functions_done "save" t_save ts ts') as (c & -> & C); [cbn; tauto | exact F|].
  destruct (functions_done "finally" t_final ts ts') as (d & -> & D); [cbn; tauto | exact F|].
  destruct (functions_done "display" t_display ts ts') as (e & -> & E); [cbn; tauto | exact F|].
  eexists. split; [reflexivity|]. split; [exact S|]. split.
  - cbn [o_structs]. clear -F. induction F as [|t t' ts ts' X _ IH]; [reflexivity|]. cbn [map]. destruct X as (-> & _). f_equal. exact IH.
  - cbn [o_functions]. unfold functions_of. cbn [flat_map fst snd]. rewrite app_nil_r. repeat apply Forall2_app; assumption.
Qed.

(** * The theorems *)

Lemma translated_objects h l : one_object h l -> can_translate h l ->
  let h' := fst (translate_all handle h (component_types h l)) in
  snd (translate_all handle h (component_types h l)) = true
  /\ (forall a, In a l -> exists t t', nth_error h a = Some t /\ nth_error h' a = Some t' /\ translate_type handle t = Some t')
  /\ (forall a, ~ In a l -> nth_error h' a = nth_error h a) /\ one_object h' l.
Proof.
  intros O C. pose proof (types_of h l O) as K. cbn zeta. rewrite K. destruct O as [V I].
  assert (IN : forall a, In a (firsts [] l) <-> In a l) by (intros a; rewrite firsts_in; cbn; tauto).
  destruct (translate_all_done (firsts [] l) h (firsts_nodup [] l)) as [S F].
  { intros a A. apply IN in A. destruct (V a A) as [t T]. destruct (type_translates t) as [t' T']; [intros b B; exact (C a t b A T B)|]. exists t, t'. split; assumption. }
  assert (G : forall a, In a l -> exists t t', nth_error h a = Some t /\ nth_error (fst (translate_all handle h (firsts [] l))) a = Some t' /\ translate_type handle t = Some t').
  { intros a A. destruct (V a A) as [t T]. destruct (F a t (proj2 (IN a) A) T) as (t' & P & Q). exists t, t'. repeat split; assumption. }
  split; [exact S|]. split; [exact G|]. split.
  - intros a A. apply translate_all_other. intros X. apply A, IN, X.
  - split; [intros a A; destruct (G a A) as (t & t' & _ & P & _); exists t'; exact P|].
    intros a b t' u' A B T' U' E. destruct (G a A) as (t & t2 & P1 & P2 & P3). destruct (G b B) as (u & u2 & Q1 & Q2 & Q3).
    assert (t2 = t') by congruence. assert (u2 = u') by congruence. subst t2 u2. destruct (type_done t t' P3) as (_ & X & _). destruct (type_done u u' Q3) as (_ & Y & _).
    apply (I a b t u A B P1 Q1). congruence.
Qed.

(** If instances of the same type have the same object, each type used has its structure, its shared code and its functions
    once, in the order of first use, with all its code translated; the text of the components stays, and those not used are not touched. *)
Theorem C86_each_type_once h l : one_object h l -> can_translate h l ->
  exists h' o ts, translate handle h l = (h', Some o)
    /\ in_order_of_first_use l ts /\ right_output (at_places h ts) o
    /\ (forall a t, nth_error h a = Some t -> exists t', nth_error h' a = Some t' /\ plain t' = plain t /\ (In a l \/ t' = t)).
Proof.
  intros O C. destruct (translated_objects h l O C) as (S & G & U & O'). unfold translate.
  pose proof (types_of h l O) as K. destruct (translate_all handle h (component_types h l)) as [h' ok] eqn:E. cbn [fst snd] in *. subst ok.
  rewrite (types_of h' l O').
  assert (F : Forall2 done (at_places h (firsts [] l)) (at_places h' (firsts [] l))).
  { assert (Q : forall a, In a (firsts [] l) -> In a l) by (intros a A; apply firsts_in in A; apply A). revert Q. generalize (firsts [] l) as s. clear E K.
    induction s as [|a s IH]; intros Q; [constructor|]. unfold at_places in *. cbn [flat_map]. destruct (G a (Q a (or_introl eq_refl))) as (t & t' & -> & -> & T).
    cbn [app]. constructor; [apply type_done, T | apply IH; intros b B; apply Q; right; exact B]. }
  destruct (write_done _ _ F) as (o & W & R). exists h', o, (firsts [] l). split; [rewrite W; reflexivity|]. split; [apply firsts_first_use|]. split; [exact R|].
  intros a t T. destruct (in_dec Nat.eq_dec a l) as [A|A].
  - destruct (G a A) as (u & t' & P & Q & X). assert (u = t) by congruence. subst u. exists t'. split; [exact Q|]. destruct (type_done _ _ X) as (_ & Y & _). split; [exact Y | left; exact A].
  - exists t. rewrite (U a A). split; [exact T|]. split; [reflexivity | right; reflexivity].
Qed.

(** A second translation then writes the same. *)
Theorem C86_again_the_same h l : one_object h l -> can_translate h l ->
  translate handle (fst (translate handle h l)) l = translate handle h l.
Proof.
  intros O C. destruct (translated_objects h l O C) as (S & G & U & O'). unfold translate at 2 3.
  destruct (translate_all handle h (component_types h l)) as [h' ok] eqn:E. cbn [fst snd] in *. subst ok. unfold translate.
  rewrite (translate_all_again h'); [reflexivity|]. intros a t A T. rewrite (types_of h' l O') in A. apply firsts_in in A as [A _].
  destruct (G a A) as (u & t' & _ & P & X). assert (t' = t) by congruence. subst t'. destruct (type_done _ _ X) as (_ & _ & Y & _). exact Y.
Qed.

(** * Two objects of the same text *)

Lemma keep_distinct h l : forall seen a b t, In a (keep_first h seen l) -> In b (keep_first h seen l) -> nth_error h a = Some t -> nth_error h b = Some t -> a = b.
Proof.
  assert (N : forall l seen a t, In a (keep_first h seen l) -> nth_error h a = Some t -> ~ In t seen).
  { clear. induction l as [|c l IH]; intros seen a t A T; [destruct A|]. cbn [keep_first] in A. destruct (nth_error h c) as [u|] eqn:U; [|exact (IH _ _ _ A T)].
    destruct (in_dec type_eq_dec u seen) as [I|I]; [exact (IH _ _ _ A T)|]. destruct A as [<-|A]; [congruence|]. intros X. apply (IH _ _ _ A T). right. exact X. }
  induction l as [|c l IH]; intros seen a b t A B T U; [destruct A|]. cbn [keep_first] in A, B. destruct (nth_error h c) as [u|] eqn:X; [|exact (IH _ _ _ _ A B T U)].
  destruct (in_dec type_eq_dec u seen) as [I|I]; [exact (IH _ _ _ _ A B T U)|]. destruct A as [<-|A]; destruct B as [<-|B].
  - reflexivity.
  - elim (N _ _ _ _ B U). left. congruence.
  - elim (N _ _ _ _ A T). left. congruence.
  - exact (IH _ _ _ _ A B T U).
Qed.
Lemma keep_covers h l : forall seen a t, In a l -> nth_error h a = Some t -> In t seen \/ In t (at_places h (keep_first h seen l)).
Proof.
  induction l as [|c l IH]; intros seen a t A T; [destruct A|]. cbn [keep_first]. destruct A as [->|A].
  - rewrite T. destruct (in_dec type_eq_dec t seen) as [I|I]; [left; exact I|]. right. unfold at_places. cbn [flat_map]. rewrite T. left. reflexivity.
  - destruct (nth_error h c) as [u|] eqn:U; [|exact (IH _ _ _ A T)]. destruct (in_dec type_eq_dec u seen) as [I|I]; [exact (IH _ _ _ A T)|].
    destruct (IH (u :: seen) a t A T) as [[->|X]|X]; [right | left; exact X | right]; unfold at_places; cbn [flat_map]; rewrite U; [left; reflexivity | right; exact X].
Qed.
Lemma untranslated_code l b : In b l -> b_translated b = None -> code l = None.
Proof. intros I N. apply all_some_in. apply in_map_iff. exists b. split; [exact N | exact I]. Qed.
Lemma function_none kind get ts t : In t ts -> code (get t) = None -> functions kind get ts = None.
Proof.
  intros I N. unfold functions. rewrite all_some_in; [reflexivity|]. apply in_map_iff. exists t. split; [|exact I].
  unfold function. destruct (get t) as [|b l]; [discriminate|]. rewrite N. reflexivity.
Qed.
Lemma write_none ts t b : In t ts -> has_block t b -> b_translated b = None -> write ts = None.
Proof.
  intros I (get & G & B) N. pose proof (untranslated_code _ _ B N) as C.
  assert (X : forall get', code (get' t) = None -> all_some (map (fun t => code (get' t)) ts) = None).
  { intros get' C'. apply all_some_in, in_map_iff. exists t. split; assumption. }
  unfold write.
  destruct G as [<-|[<-|[<-|[<-|[<-|[<-|[<-|[<-|[]]]]]]]]].
  - rewrite (X _ C). reflexivity.
  - rewrite (X _ C). destruct (all_some _); [|reflexivity]. destruct (all_some _); reflexivity.
  - rewrite (X _ C). destruct (all_some _); reflexivity.
  - rewrite (function_none "initialize" _ _ _ I C). repeat (destruct (all_some _); [|reflexivity]). destruct (shared_code ts); reflexivity.
  - rewrite (function_none "trace" _ _ _ I C). repeat (destruct (all_some _); [|reflexivity]). destruct (shared_code ts); [|reflexivity]. destruct (functions _ _ ts); reflexivity.
  - rewrite (function_none "save" _ _ _ I C). repeat (destruct (all_some _); [|reflexivity]). destruct (shared_code ts); [|reflexivity]. do 2 (destruct (functions _ _ ts); [|reflexivity]). reflexivity.
  - rewrite (function_none "finally" _ _ _ I C). repeat (destruct (all_some _); [|reflexivity]). destruct (shared_code ts); [|reflexivity]. do 3 (destruct (functions _ _ ts); [|reflexivity]). reflexivity.
  - rewrite (function_none "display" _ _ _ I C). repeat (destruct (all_some _); [|reflexivity]). destruct (shared_code ts); [|reflexivity]. do 4 (destruct (functions _ _ ts); [|reflexivity]). reflexivity.
Qed.
Lemma two_objects_fail h l a b t c : In a l -> In b l -> a <> b -> nth_error h a = Some t -> nth_error h b = Some t -> has_block t c -> b_translated c = None ->
  snd (translate handle h l) = None.
Proof.
  intros A B D T U C N. unfold translate. destruct (translate_all handle h (component_types h l)) as [h' ok] eqn:E. cbn [snd]. destruct ok; [|reflexivity].
  assert (X : exists x, In x l /\ nth_error h' x = Some t).
  { destruct (in_dec Nat.eq_dec a (component_types h l)) as [I|I].
    - destruct (in_dec Nat.eq_dec b (component_types h l)) as [J|J]; [elim D; exact (keep_distinct _ _ _ _ _ _ I J T U)|].
      exists b. split; [exact B|]. rewrite <- U, <- (translate_all_other h _ b J), E. reflexivity.
    - exists a. split; [exact A|]. rewrite <- T, <- (translate_all_other h _ a I), E. reflexivity. }
  destruct X as (x & I & X). destruct (keep_covers h' l [] x t I X) as [[]|Y]. exact (write_none _ _ _ Y C N).
Qed.
Lemma made_by_name read name x : let x' := make_by_name read name x in In (List.length (fst x)) (snd x') /\ nth_error (fst x') (List.length (fst x)) = Some (read name).
Proof.
  cbn. split; [apply in_or_app; right; left; reflexivity|]. rewrite nth_error_app2, Nat.sub_diag by lia. reflexivity.
Qed.

(** Two instances that were made with the name of their component have two objects of the same text, only one of which is
    translated: translating the instrument fails for every component with any code, whatever else the instrument has. *)
Theorem C86_made_by_name_refuted read name x b : has_block (read name) b -> b_translated b = None ->
  let x' := make_by_name read name (make_by_name read name x) in snd (translate handle (fst x') (snd x')) = None.
Proof.
  intros B N x'. destruct (made_by_name read name x) as [I1 T1]. destruct (made_by_name read name (make_by_name read name x)) as [I2 T2].
  apply (two_objects_fail (fst x') (snd x') (List.length (fst x)) (List.length (fst (make_by_name read name x))) (read name) b).
  - cbn [snd make_by_name x']. apply in_or_app. left. exact I1.
  - exact I2.
  - cbn [fst make_by_name]. rewrite app_length. cbn [List.length]. lia.
  - cbn [fst make_by_name x']. rewrite nth_error_app1; [exact T1|]. cbn [fst make_by_name]. rewrite app_length. cbn [List.length]. lia.
  - exact T2.
  - exact B.
  - exact N.
Qed.

(** The same holds for one instance made with a name beside one that came from a file: in particular for an instrument
    with an MCPL_output that is split at another component. *)
Theorem C86_made_beside_read_refuted read name x a b : In a (snd x) -> nth_error (fst x) a = Some (read name) -> has_block (read name) b -> b_translated b = None ->
  let x' := make_by_name read name x in snd (translate handle (fst x') (snd x')) = None.
Proof.
  intros A T B N x'. destruct (made_by_name read name x) as [I1 T1]. assert (L : a < List.length (fst x)) by (apply nth_error_Some; congruence).
  apply (two_objects_fail (fst x') (snd x') a (List.length (fst x)) (read name) b); [| exact I1 | lia | | exact T1 | exact B | exact N].
  - cbn [snd make_by_name x']. apply in_or_app. left. exact A.
  - cbn [fst make_by_name x']. rewrite nth_error_app1; assumption.
Qed.

(** The same translation that failed succeeds when it is tried again: the first one has changed the objects. *)
Theorem C86_outcome_repeats_refuted t b : (forall c, has_block t c -> handle (t_name t) (b_source c) <> None) -> has_block t b -> b_translated b = None ->
  let first := translate handle [t; t] [0; 1] in
  snd first = None /\ exists o, snd (translate handle (fst first) [0; 1]) = Some o /\ right_output [t] o.
Proof.
  intros H B N first. split; [apply (two_objects_fail [t; t] [0; 1] 0 1 t b); try reflexivity; try assumption; [left; reflexivity | right; left; reflexivity | discriminate]|].
  destruct (type_translates t H) as [t' T]. pose proof (type_done t t' T) as D.
  assert (DIF : t <> t').
  { intros E. destruct B as (get & G & B). destruct D as (_ & _ & _ & R). destruct (R get G) as (ss & C & _). rewrite <- E, (untranslated_code _ _ B N) in C. discriminate. }
  assert (F : fst first = [t'; t]).
  { unfold first, translate, component_types. cbn [keep_first nth_error]. destruct (in_dec type_eq_dec t []) as [[]|_]. destruct (in_dec type_eq_dec t [t]) as [_|X]; [|elim X; left; reflexivity].
    cbn [translate_all nth_error]. rewrite T. cbn [put translate_all]. reflexivity. }
  rewrite F. unfold translate, component_types. cbn [keep_first nth_error]. destruct (in_dec type_eq_dec t' []) as [[]|_].
  destruct (in_dec type_eq_dec t [t']) as [[X|[]]|_]; [elim DIF; symmetry; exact X|].
  pose proof D as (_ & _ & Z & _). cbn [translate_all nth_error]. rewrite Z. cbn [put translate_all nth_error]. rewrite T. cbn [put translate_all nth_error].
  cbn [keep_first nth_error]. destruct (in_dec type_eq_dec t' []) as [[]|_]. destruct (in_dec type_eq_dec t' [t']) as [_|X]; [|elim X; left; reflexivity].
  cbn [snd at_places flat_map nth_error app]. apply write_done. constructor; [exact D | constructor].
Qed.
End Handle.
Print Assumptions C86_each_type_once.
Print Assumptions C86_again_the_same.
Print Assumptions C86_made_by_name_refuted.
Print Assumptions C86_made_beside_read_refuted.
Print Assumptions C86_outcome_repeats_refuted.

(** * Examples *)

Definition ex_handle (name source : string) : option string := if String.eqb source "%include ""lost""" then None else Some (source ++ " /* " ++ name ++ " */")%string.
Definition ex_slit := mkT "Slit" "" [] [] [] [] [mkB "Slit.comp:9" "PROP_Z0;" None] [] [] [mkB "Slit.comp:20" "box();" None].
Definition ex_guide := mkT "Guide" "l=1" [mkB "Guide.comp:5" "double f(void);" None] [] [] [mkB "Guide.comp:7" "init();" None] [mkB "Guide.comp:9" "reflect();" None] [] [] [].
Definition ex_heap := [ex_slit; ex_guide].
Example C86_each_type_once_example :
  one_object ex_heap [1; 0; 1; 1] /\ can_translate ex_handle ex_heap [1; 0; 1; 1]
  /\ snd (translate ex_handle ex_heap [1; 0; 1; 1])
     = Some (mkO [("Guide", ["double f(void); /* Guide */"])] ["Guide"; "Slit"]
               [("initialize", "Guide", ["init(); /* Guide */"]); ("trace", "Guide", ["reflect(); /* Guide */"]);
                ("trace", "Slit", ["PROP_Z0; /* Slit */"]); ("display", "Slit", ["box(); /* Slit */"])]).
Proof.
  split; [|split; [|reflexivity]].
  - split; [intros a [<-|[<-|[<-|[<-|[]]]]]; eexists; reflexivity|].
    intros a b t u [<-|[<-|[<-|[<-|[]]]]] [<-|[<-|[<-|[<-|[]]]]]; try reflexivity; intros [= <-] [= <-]; discriminate.
  - intros a t b [<-|[<-|[<-|[<-|[]]]]] [= <-] (get & [<-|[<-|[<-|[<-|[<-|[<-|[<-|[<-|[]]]]]]]]] & B); cbn in B;
      repeat (destruct B as [<-|B]; [discriminate|]); destruct B.
Qed.
Example C86_again_the_same_example :
  translate ex_handle (fst (translate ex_handle ex_heap [1; 0; 1; 1])) [1; 0; 1; 1] = translate ex_handle ex_heap [1; 0; 1; 1].
Proof. reflexivity. Qed.
Example C86_made_by_name_refuted_example :
  let read := fun name : string => ex_slit in
  has_block (read "Slit") (mkB "Slit.comp:9" "PROP_Z0;" None)
  /\ snd (translate ex_handle [ex_slit; ex_slit] [0; 1]) = None /\ snd (translate ex_handle [ex_slit] [0; 0]) <> None
  /\ make_by_name read "Slit" (make_by_name read "Slit" ([], [])) = ([ex_slit; ex_slit], [0; 1])
  /\ make_with 0 (make_by_name read "Slit" ([], [])) = ([ex_slit], [0; 0]).
Proof.
  cbn zeta. split; [exists t_trace; split; [cbn; tauto | left; reflexivity]|]. split; [reflexivity|]. split; [discriminate|]. split; reflexivity.
Qed.
Example C86_made_beside_read_refuted_example :
  let read := fun name : string => ex_slit in let x := (ex_heap, [1; 0]) in
  In 0 (snd x) /\ nth_error (fst x) 0 = Some (read "Slit") /\ make_by_name read "Slit" x = ([ex_slit; ex_guide; ex_slit], [1; 0; 2])
  /\ snd (translate ex_handle ex_heap [1; 0]) <> None /\ snd (translate ex_handle [ex_slit; ex_guide; ex_slit] [1; 0; 2]) = None.
Proof. cbn zeta. split; [right; left; reflexivity|]. split; [reflexivity|]. split; [reflexivity|]. split; [discriminate | reflexivity]. Qed.
Example C86_outcome_repeats_refuted_example :
  snd (translate ex_handle (fst (translate ex_handle [ex_slit; ex_slit] [0; 1])) [0; 1])
  = Some (mkO [] ["Slit"] [("trace", "Slit", ["PROP_Z0; /* Slit */"]); ("display", "Slit", ["box(); /* Slit */"])]).
Proof. reflexivity. Qed.
