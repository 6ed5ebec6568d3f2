(** Property C62: which blocks of an instrument run when. *)
From Coq Require Import List String Ascii Bool NArith ZArith Arith Lia.
From Verif Require Import PyStr Life.
Import ListNotations.
Local Open Scope string_scope.
Local Open Scope list_scope.
Local Open Scope nat_scope.

(** * Specification *)
Definition ran (i : option string) (l : list block) : list event := map (fun b => Ran i (b_text b)) l.
(** instances have different names, component types of one name are the same, and the parameters of a type have different names *)
Definition named (so : source) : Prop :=
  NoDup (map i_name (s_comps so)) /\ (forall i j, In i (s_comps so) -> In j (s_comps so) -> t_name (i_type i) = t_name (i_type j) -> i_type i = i_type j) /\
  (forall i, In i (s_comps so) -> NoDup (map fst (t_setting (i_type i)))).
(** the SETTING parameters of an instance that hold a vector of known length *)
Definition holds_vector (i : inst) (p : string) : bool :=
  match find (fun pv : string * bool => fst pv =?s p) (i_pars i) with Some pv => snd pv | None => existsb (fun dv : string * bool => (fst dv =?s p) && snd dv) (t_setting (i_type i)) end.
Definition vectors (i : inst) : list string := filter (holds_vector i) (map fst (t_setting (i_type i))).
Definition given_vectors (i : inst) : list string := map fst (filter snd (i_pars i)).
Definition per_instance (so : source) (f : inst -> list event) : list event := List.concat (map f (s_comps so)).
Definition drawing (so : source) : list event :=
  [Said "MCDISPLAY: start"] ++ per_instance so (fun i => Said ("MCDISPLAY: component " ++ i_name i) :: ran (Some (i_name i)) (t_display (i_type i))) ++ [Said "MCDISPLAY: end"].
Definition initialising (so : source) (tracing : bool) : list event :=
  ran None (s_init so)
  ++ per_instance so (fun i => map (Allocated (i_name i)) (vectors i) ++ [Placed (i_name i)])
  ++ per_instance so (fun i => ran (Some (i_name i)) (t_init (i_type i)))
  ++ (if tracing then drawing so else []).
(** [handle]: a file is given *)
Definition saving (so : source) (handle : bool) : list event :=
  let file := fun e => if handle then [] else [e] in
  file Opened ++ ran None (s_save so) ++ per_instance so (fun i => ran (Some (i_name i)) (t_save (i_type i))) ++ file Closed.
Definition finishing (so : source) (opened : bool) : list event :=
  [Opened] ++ saving so opened ++ ran None (s_final so)
  ++ per_instance so (fun i => ran (Some (i_name i)) (t_final (i_type i)) ++ map (Freed (i_name i)) (given_vectors i)) ++ [Closed].

(** * Names of functions *)
Lemma nodup_app {A} (a b : list A) : NoDup a -> NoDup b -> (forall x, In x a -> In x b -> False) -> NoDup (a ++ b).
Proof. induction a as [|x a IH]; intros Na Nb D; [exact Nb|]. apply NoDup_cons_iff in Na as [N Na]. cbn [app]. constructor; [rewrite in_app_iff; intros [H|H]; [auto|apply (D x); [now left|exact H]]|]. apply IH; auto. intros y Y. apply D. now right. Qed.
Fixpoint las (s : string) : list ascii := match s with EmptyString => [] | String c r => c :: las r end.
Lemma las_app a b : las (a ++ b)%string = las a ++ las b.
Proof. induction a; cbn; congruence. Qed.
(** setting up, the four kinds of class functions and the four functions called from outside *)
Definition kind (s : string) : nat :=
  match s with
  | String "_" _ => 0
  | String "c" _ => match rev (las s) with "e" :: "z" :: _ => 1 | "e" :: "v" :: _ => 2 | "y" :: "l" :: _ => 3 | "y" :: "a" :: _ => 4 | _ => 9 end%char
  | String "i" _ => 5 | String "s" _ => 6 | String "f" _ => 7 | String "d" _ => 8 | _ => 10
  end.
Lemma kind_class t : kind (class_name t "initialize") = 1 /\ kind (class_name t "save") = 2 /\ kind (class_name t "finally") = 3 /\ kind (class_name t "display") = 4.
Proof.
  assert (K : forall sec, kind (class_name t sec) = match rev (las sec) ++ rev (las ("class_" ++ t ++ "_")%string) with "e" :: "z" :: _ => 1 | "e" :: "v" :: _ => 2 | "y" :: "l" :: _ => 3 | "y" :: "a" :: _ => 4 | _ => 9 end%char).
  { intro sec. rewrite <- rev_app_distr, <- las_app. unfold class_name. cbn [append]. rewrite !string_app_assoc. cbn [append kind]. reflexivity. }
  rewrite !K. repeat split.
Qed.
Lemma class_inj t t' sec : class_name t sec = class_name t' sec -> t = t'.
Proof. unfold class_name. intro E. apply string_app_inj_l in E. now apply string_app_inj_r in E. Qed.
Lemma setpos_inj i j : setpos_name i = setpos_name j -> i_name i = i_name j.
Proof. unfold setpos_name. intro E. apply string_app_inj_l in E. now apply string_app_inj_r in E. Qed.
Lemma types_spec so : NoDup (component_types so) /\ (forall t, In t (component_types so) <-> In t (map i_type (s_comps so))).
Proof.
  unfold component_types. assert (G : forall l acc, NoDup acc -> NoDup (fold_left keep l acc) /\ (forall t, In t (fold_left keep l acc) <-> In t acc \/ In t l)).
  { induction l as [|x l IH]; intros acc N; [cbn; split; [exact N|tauto]|]. cbn [fold_left]. unfold keep at 2 4. destruct (in_dec ctype_dec x acc) as [I|I].
    - destruct (IH acc N) as [A B]. split; [exact A|]. intro t. rewrite B. cbn [In]. intuition (subst; auto).
    - destruct (IH (acc ++ [x])) as [A B]; [apply nodup_app; [exact N|repeat constructor; auto|intros y Y [<-|[]]; contradiction]|]. split; [exact A|]. intro t. rewrite B, in_app_iff. cbn [In]. tauto. }
  destruct (G (map i_type (s_comps so)) [] (NoDup_nil _)) as [A B]. split; [exact A|]. intro t. rewrite B. cbn [In]. tauto.
Qed.
Lemma type_names so : named so -> NoDup (map t_name (component_types so)).
Proof.
  intros (_ & S1 & _). destruct (types_spec so) as [N I]. assert (H : forall t, In t (component_types so) -> In t (map i_type (s_comps so))) by (intros; now apply I). clear I.
  induction N as [|t l Nt N IH]; [constructor|]. cbn [map]. constructor; [|apply IH; intros; apply H; now right]. intro J. apply in_map_iff in J as (t' & E & J). apply Nt.
  pose proof (H t (or_introl eq_refl)) as A. pose proof (H t' (or_intror J)) as B. apply in_map_iff in A as (i & <- & A). apply in_map_iff in B as (j & <- & B). rewrite (S1 i j A B (eq_sym E)). exact J.
Qed.
Lemma class_names_ok (f : ctype -> list func) sec (blocks : ctype -> list block) (l : list ctype) :
  (forall t, map fst (f t) = if is_nil (blocks t) then [] else [class_name (t_name t) sec]) -> NoDup (map t_name l) ->
  NoDup (map fst (flat_map f l)) /\ (forall x, In x (map fst (flat_map f l)) -> exists t, x = class_name t sec).
Proof.
  intros F N. assert (G : forall x, In x (map fst (flat_map f l)) -> exists t, In t l /\ x = class_name (t_name t) sec).
  { clear N. induction l as [|t l IH]; [intros x []|]. cbn [flat_map]. rewrite map_app. intros x X. apply in_app_or in X as [X|X].
    - rewrite F in X. destruct (is_nil (blocks t)); [destruct X|]. destruct X as [<-|[]]. exists t. split; [now left|reflexivity].
    - destruct (IH x X) as (t' & I & E). exists t'. split; [now right|exact E]. }
  split; [|intros x X; destruct (G x X) as (t & _ & ->); eauto].
  induction l as [|t l IH]; [constructor|]. cbn [flat_map map] in *. rewrite map_app in *. apply NoDup_cons_iff in N as [Nt N].
  assert (G' : forall x, In x (map fst (flat_map f l)) -> exists t, In t l /\ x = class_name (t_name t) sec).
  { clear - F. induction l as [|u l IH]; [intros x []|]. cbn [flat_map]. rewrite map_app. intros x X. apply in_app_or in X as [X|X].
    - rewrite F in X. destruct (is_nil (blocks u)); [destruct X|]. destruct X as [<-|[]]. exists u. split; [now left|reflexivity].
    - destruct (IH x X) as (t' & I & E). exists t'. split; [now right|exact E]. }
  apply nodup_app; [rewrite F; destruct (is_nil (blocks t)); repeat constructor; auto|apply IH; [exact N|exact G']|].
  intros x X Y. rewrite F in X. destruct (is_nil (blocks t)); [destruct X|]. destruct X as [<-|[]]. destruct (G' _ Y) as (t' & I & E). apply class_inj in E. apply Nt. rewrite E. now apply in_map.
Qed.
Lemma init_class_name t : map fst (init_class t) = if is_nil (t_init t) then [] else [class_name (t_name t) "initialize"].
Proof. unfold init_class. destruct (is_nil (t_init t)); [reflexivity|]. now destruct (place _ _). Qed.
Lemma save_class_name t : map fst (save_class t) = if is_nil (t_save t) then [] else [class_name (t_name t) "save"].
Proof. unfold save_class. destruct (is_nil (t_save t)); [reflexivity|]. now destruct (place _ _). Qed.
Lemma final_class_name t : map fst (final_class t) = if is_nil (t_final t) then [] else [class_name (t_name t) "finally"].
Proof. unfold final_class. destruct (is_nil (t_final t)); [reflexivity|]. now destruct (place _ _). Qed.
Lemma display_class_name t : map fst (display_class t) = if is_nil (t_display t) then [] else [class_name (t_name t) "display"].
Proof. unfold display_class. destruct (is_nil (t_display t)); [reflexivity|]. destruct (is_nil (t_final t)); [reflexivity|]. now destruct (place _ _). Qed.

(** C62: no function is defined twice. *)
Theorem C62_functions_are_distinct : forall so, named so -> NoDup (map fst (program so)).
Proof.
  intros so W. pose proof (type_names so W) as T. destruct W as [W _].
  destruct (class_names_ok init_class "initialize" t_init _ init_class_name T) as [A1 A2]. destruct (class_names_ok save_class "save" t_save _ save_class_name T) as [B1 B2].
  destruct (class_names_ok final_class "finally" t_final _ final_class_name T) as [C1 C2]. destruct (class_names_ok display_class "display" t_display _ display_class_name T) as [D1 D2].
  assert (S1 : map fst (map setpos (s_comps so)) = map setpos_name (s_comps so)) by (rewrite map_map; apply map_ext; intro i; unfold setpos; now destruct (place _ _)).
  assert (S2 : NoDup (map setpos_name (s_comps so))).
  { clear - W. induction (s_comps so) as [|i l IH]; [constructor|]. cbn [map] in *. apply NoDup_cons_iff in W as [N W]. constructor; [|auto]. intro H. apply in_map_iff in H as (j & E & J). apply setpos_inj in E. apply N. rewrite <- E. now apply in_map. }
  assert (S3 : forall x, In x (map setpos_name (s_comps so)) -> kind x = 0) by (intros x X; apply in_map_iff in X as (i & <- & _); reflexivity).
  assert (A3 : forall x, In x (map fst (flat_map init_class (component_types so))) -> kind x = 1) by (intros x X; destruct (A2 x X) as [t ->]; exact (proj1 (kind_class t))).
  assert (B3 : forall x, In x (map fst (flat_map save_class (component_types so))) -> kind x = 2) by (intros x X; destruct (B2 x X) as [t ->]; exact (proj1 (proj2 (kind_class t)))).
  assert (C3 : forall x, In x (map fst (flat_map final_class (component_types so))) -> kind x = 3) by (intros x X; destruct (C2 x X) as [t ->]; exact (proj1 (proj2 (proj2 (kind_class t))))).
  assert (D3 : forall x, In x (map fst (flat_map display_class (component_types so))) -> kind x = 4) by (intros x X; destruct (D2 x X) as [t ->]; exact (proj2 (proj2 (proj2 (kind_class t))))).
  unfold program. unfold func in *. rewrite !map_app. unfold func in *. rewrite S1. cbn [map init_main save_main final_main display_main fst].
  set (la := map fst (flat_map init_class (component_types so))) in *. set (lb := map fst (flat_map save_class (component_types so))) in *. set (lc := map fst (flat_map final_class (component_types so))) in *.
  set (ld := map fst (flat_map display_class (component_types so))) in *. set (ls := map setpos_name (s_comps so)) in *.
  assert (One : forall s : string, NoDup [s]) by (intro; repeat constructor; auto).
  assert (K : forall (a b : list string), NoDup a -> NoDup b -> (forall x y, In x a -> In y b -> kind x <> kind y) -> NoDup (a ++ b)) by (intros a b Na Nb D; apply nodup_app; auto; intros x X Y; exact (D x x X Y eq_refl)).
  assert (Q : forall n (a b : list string), (forall x, In x a -> kind x = n) -> (forall y, In y b -> kind y <> n) -> forall x y, In x a -> In y b -> kind x <> kind y) by (intros n a b H1 H2 x y X Y; rewrite (H1 x X); intro; apply (H2 y Y); auto).
  assert (Z : forall n (a b : list string), (forall y, In y a -> kind y <> n) -> (forall y, In y b -> kind y <> n) -> forall y, In y (a ++ b) -> kind y <> n) by (intros n a b H1 H2 y Y; apply in_app_or in Y as [Y|Y]; auto).
  assert (S4 : forall n, n <> 0 -> forall y, In y ls -> kind y <> n) by (intros n Hn y Y; rewrite (S3 y Y); auto).
  assert (A4 : forall n, n <> 1 -> forall y, In y la -> kind y <> n) by (intros n Hn y Y; rewrite (A3 y Y); auto).
  assert (B4 : forall n, n <> 2 -> forall y, In y lb -> kind y <> n) by (intros n Hn y Y; rewrite (B3 y Y); auto).
  assert (C4 : forall n, n <> 3 -> forall y, In y lc -> kind y <> n) by (intros n Hn y Y; rewrite (C3 y Y); auto).
  assert (D4 : forall n, n <> 4 -> forall y, In y ld -> kind y <> n) by (intros n Hn y Y; rewrite (D3 y Y); auto).
  assert (O1 : forall n s, kind s <> n -> forall y, In y [s] -> kind y <> n) by (intros n s H y [<-|[]]; exact H).
  assert (O2 : forall n s, kind s = n -> forall y, In y [s] -> kind y = n) by (intros n s H y [<-|[]]; exact H).
  apply K; [exact S2| |apply (Q 0); [exact S3|repeat (apply Z; [first [apply A4|apply B4|apply C4|apply D4|apply O1]; discriminate|]); apply O1; discriminate]].
  apply K; [exact A1| |apply (Q 1); [exact A3|repeat (apply Z; [first [apply B4|apply C4|apply D4|apply O1]; discriminate|]); apply O1; discriminate]].
  apply K; [apply One| |apply (Q 5); [apply O2; reflexivity|repeat (apply Z; [first [apply B4|apply C4|apply D4|apply O1]; discriminate|]); apply O1; discriminate]].
  apply K; [exact B1| |apply (Q 2); [exact B3|repeat (apply Z; [first [apply C4|apply D4|apply O1]; discriminate|]); apply O1; discriminate]].
  apply K; [apply One| |apply (Q 6); [apply O2; reflexivity|repeat (apply Z; [first [apply C4|apply D4|apply O1]; discriminate|]); apply O1; discriminate]].
  apply K; [exact C1| |apply (Q 3); [exact C3|repeat (apply Z; [first [apply D4|apply O1]; discriminate|]); apply O1; discriminate]].
  apply K; [apply One| |apply (Q 7); [apply O2; reflexivity|repeat (apply Z; [first [apply D4|apply O1]; discriminate|]); apply O1; discriminate]].
  apply K; [exact D1|apply One|apply (Q 4); [exact D3|apply O1; discriminate]].
Qed.
Print Assumptions C62_functions_are_distinct.

(** * Execution *)
Lemma find_func_in prog f body : NoDup (map fst prog) -> In (f, body) prog -> find_func prog f = Some body.
Proof.
  unfold find_func. induction prog as [|[g b] prog IH]; intros N I; [destruct I|]. cbn [map fst] in N. apply NoDup_cons_iff in N as [Ng N]. cbn [find fst]. destruct I as [I|I].
  - injection I as -> ->. now rewrite String.eqb_refl.
  - destruct (String.eqb_spec g f) as [->|]; [exfalso; apply Ng; now apply (in_map fst) in I|auto].
Qed.
Lemma all_app st a b : all st (a ++ b) = match all st a, all st b with Some x, Some y => Some (x ++ y) | _, _ => None end.
Proof. induction a as [|s a IH]; [cbn [app all]; now destruct (all st b)|]. cbn [app all]. rewrite IH. destruct (st s); [|reflexivity]. destruct (all st a); [|reflexivity]. destruct (all st b); [|reflexivity]. now rewrite app_assoc. Qed.
Lemma all_each {A} st (g : A -> list stmt) (h : A -> list event) l : (forall x, In x l -> all st (g x) = Some (h x)) -> all st (flat_map g l) = Some (List.concat (map h l)).
Proof. induction l as [|x l IH]; intro H; [reflexivity|]. cbn [flat_map map List.concat]. rewrite all_app, (H x) by now left. rewrite IH; [reflexivity|]. intros; apply H; now right. Qed.
Lemma all_code st o l : (forall b, st (Code b) = Some [Ran o (b_text b)]) -> all st (map Code l) = Some (ran o l).
Proof. intro H. induction l as [|b l IH]; [reflexivity|]. cbn [map all]. now rewrite H, IH. Qed.
Lemma all_messages st n sec l : (forall t f k, st (Message t f k) = Some []) -> all st (messages n sec l) = Some [].
Proof. intro H. destruct l; [reflexivity|]. cbn [messages all]. now rewrite H. Qed.
(** the step of [run] *)
Definition step prog tracing opened n a (s : stmt) : option (list event) :=
  match s with
  | Message _ _ _ => Some []
  | Code b => Some [Ran (comp_of a) (b_text b)]
  | Call g b => run prog tracing opened n g b
  | IfTracing g => if tracing then run prog tracing opened n g ANone else Some []
  | IfNoHandle o => if match a with AHandle => opened | _ => false end then Some [] else Some [if o then Opened else Closed]
  | Open => Some [Opened]
  | Close => Some [Closed]
  | Say t => Some [Said t]
  | SayName i => Some [Said ("MCDISPLAY: component " ++ i)]
  | SayOwnName => match a with AComp i => Some [Said ("MCDISPLAY: component " ++ i)] | _ => None end
  | Calloc i p => Some [Allocated i p]
  | Free i p => Some [Freed i p]
  | Place i => Some [Placed i]
  end.
Lemma run_body prog tracing opened n f a body : NoDup (map fst prog) -> In (f, body) prog -> run prog tracing opened (S n) f a = all (step prog tracing opened n a) body.
Proof. intros N I. cbn [run]. rewrite (find_func_in prog f body N I). reflexivity. Qed.
Lemma types_in so i : In i (s_comps so) -> In (i_type i) (component_types so).
Proof. intro I. apply types_spec. now apply in_map. Qed.
Lemma flat_map_concat_map_call (l : list inst) : flat_map (fun i => [Call (setpos_name i) ANone]) l = map (fun i => Call (setpos_name i) ANone) l.
Proof. induction l as [|i l IH]; [reflexivity|]. cbn [flat_map map app]. now rewrite IH. Qed.
Section Runs.
  Variables (so : source) (tracing opened : bool).
  Hypothesis W : named so.
  Let prog := program so.
  Let N : NoDup (map fst prog) := C62_functions_are_distinct so W.
  Lemma in_prog_flat (f : ctype -> list func) x i : In i (s_comps so) -> In x (f (i_type i)) -> In x (flat_map f (component_types so)).
  Proof. intros I J. apply in_flat_map. exists (i_type i). split; [now apply types_in|exact J]. Qed.
  Lemma class_run (f : ctype -> list func) sec (blocks : ctype -> list block) n i : In i (s_comps so) ->
    (forall x, In x (flat_map f (component_types so)) -> In x prog) -> (exists t p l, f (i_type i) = if is_nil (blocks (i_type i)) then [] else [(class_name (t_name (i_type i)) sec, Message t p l :: map Code (blocks (i_type i)))]) ->
    forall a, all (step prog tracing opened (S n) a) (calls sec blocks i) = Some (ran (Some (i_name i)) (blocks (i_type i))).
  Proof.
    intros I P (t & p & l & F) a. unfold calls. destruct (is_nil (blocks (i_type i))) eqn:E; [destruct (blocks (i_type i)); [reflexivity|discriminate]|].
    cbn [all step]. rewrite (run_body prog tracing opened n _ _ (Message t p l :: map Code (blocks (i_type i))) N).
    - cbn [all step]. rewrite (all_code _ (Some (i_name i))) by reflexivity. cbn [app]. now rewrite app_nil_r.
    - apply P. apply (in_prog_flat f _ i I). rewrite F. now left.
  Qed.
  Lemma display_run n : run prog tracing opened (S (S n)) "display" ANone = Some (drawing so).
  Proof.
    rewrite (run_body prog tracing opened (S n) "display" ANone (snd (display_main so)) N) by (unfold prog, program; rewrite !in_app_iff; do 8 right; now left).
    cbn [snd display_main all step]. rewrite all_app.
    rewrite (all_each _ _ (fun i => Said ("MCDISPLAY: component " ++ i_name i) :: ran (Some (i_name i)) (t_display (i_type i)))); [reflexivity|].
    intros i I. destruct (is_nil (t_display (i_type i))) eqn:E; [destruct (t_display (i_type i)); [reflexivity|discriminate]|]. unfold calls. rewrite E. cbn [all step].
    assert (F : exists t p l, display_class (i_type i) = [(class_name (t_name (i_type i)) "display", Message t p l :: SayOwnName :: map Code (t_display (i_type i)))]).
    { unfold display_class. rewrite E. destruct (if is_nil (t_final (i_type i)) then _ else _) as [p l]. do 3 eexists. reflexivity. }
    destruct F as (t & p & l & F). rewrite (run_body prog tracing opened n _ _ (Message t p l :: SayOwnName :: map Code (t_display (i_type i))) N).
    - cbn [all step]. rewrite (all_code _ (Some (i_name i))) by reflexivity. cbn [app]. now rewrite app_nil_r.
    - unfold prog, program. rewrite !in_app_iff. do 7 right. left. apply (in_prog_flat display_class _ i I). rewrite F. now left.
  Qed.
  Lemma save_run n a : run prog tracing opened (S (S n)) "save" a = Some (match a with AComp i => [Opened] ++ ran (Some i) (s_save so) ++ per_instance so (fun i => ran (Some (i_name i)) (t_save (i_type i))) ++ [Closed] | AHandle => saving so opened | ANone => saving so false end).
  Proof.
    rewrite (run_body prog tracing opened (S n) "save" a (snd (save_main so)) N) by (unfold prog, program; rewrite !in_app_iff; do 4 right; left; now left).
    cbn [snd save_main all]. rewrite !all_app, all_messages by reflexivity. rewrite (all_code _ (comp_of a)) by reflexivity.
    rewrite (all_each _ _ (fun i => ran (Some (i_name i)) (t_save (i_type i)))).
    - cbn [all step]. destruct a; [reflexivity|reflexivity|]. unfold saving. destruct opened; [|reflexivity]. cbn [app comp_of]. now rewrite !app_nil_r.
    - intros i I. apply (class_run save_class); [exact I| |unfold save_class; destruct (place _ _) as [p l]; do 3 eexists; reflexivity].
      intros x X. unfold prog, program. rewrite !in_app_iff. do 3 right. now left.
  Qed.
  Lemma given_find n l : given n l = match find (fun pv : string * bool => fst pv =?s n) l with Some pv => Some (snd pv) | None => None end.
  Proof. induction l as [|[m v] l IH]; [reflexivity|]. cbn [given find fst]. destruct (m =?s n); [reflexivity|exact IH]. Qed.
  Lemma allocations_run n a i : In i (s_comps so) -> all (step prog tracing opened n a) (allocations i) = Some (map (Allocated (i_name i)) (vectors i)).
  Proof.
    intro I. unfold allocations, vectors. pose proof W as (_ & _ & U). specialize (U i I). unfold holds_vector.
    assert (G : forall l, (forall dv, In dv l -> In dv (t_setting (i_type i))) -> all (step prog tracing opened n a) (flat_map (fun dv : string * bool => if match given (fst dv) (i_pars i) with Some v => v | None => snd dv end then [Calloc (i_name i) (fst dv)] else []) l)
      = Some (map (Allocated (i_name i)) (filter (fun p => match find (fun pv : string * bool => fst pv =?s p) (i_pars i) with Some pv => snd pv | None => existsb (fun dv : string * bool => (fst dv =?s p) && snd dv) (t_setting (i_type i)) end) (map fst l)))).
    { induction l as [|[p v] l IH]; intro S1; [reflexivity|]. cbn [flat_map map fst filter snd]. rewrite all_app, IH by (intros; apply S1; now right). rewrite given_find.
      assert (E : existsb (fun dv : string * bool => (fst dv =?s p) && snd dv) (t_setting (i_type i)) = v).
      { specialize (S1 _ (or_introl eq_refl)). clear - S1 U. induction (t_setting (i_type i)) as [|[q w] r IH]; [destruct S1|]. cbn [map fst] in U. apply NoDup_cons_iff in U as [Uq U]. cbn [existsb fst snd]. destruct S1 as [S1|S1].
        - injection S1 as -> ->. rewrite String.eqb_refl. cbn [andb]. destruct v; [reflexivity|]. cbn [orb]. apply not_true_iff_false. intro H. apply existsb_exists in H as ([q w] & H & K). cbn [fst snd] in K. apply andb_true_iff in K as [K _]. apply String.eqb_eq in K as ->.
          apply Uq. now apply (in_map fst) in H.
        - rewrite (IH U S1). destruct (String.eqb_spec q p) as [->|]; [exfalso; apply Uq; now apply (in_map fst) in S1|reflexivity]. }
      rewrite E. destruct (find _ (i_pars i)) as [[q w]|]; cbn [snd]; [destruct w|destruct v]; reflexivity. }
    apply G. auto.
  Qed.
  Lemma init_run n : run prog tracing opened (S (S (S n))) "init" ANone = Some (initialising so tracing).
  Proof.
    rewrite (run_body prog tracing opened (S (S n)) "init" ANone (snd (init_main so)) N) by (unfold prog, program; rewrite !in_app_iff; do 2 right; left; now left).
    cbn [snd init_main]. rewrite !all_app, all_messages by reflexivity. rewrite (all_code _ None) by reflexivity.
    rewrite <- flat_map_concat_map_call. rewrite (all_each _ _ (fun i => map (Allocated (i_name i)) (vectors i) ++ [Placed (i_name i)])).
    - rewrite (all_each _ _ (fun i => ran (Some (i_name i)) (t_init (i_type i)))).
      + cbn [all step]. rewrite display_run. unfold initialising. destruct tracing; cbn [app]; now rewrite ?app_nil_r.
      + intros i I. apply (class_run init_class); [exact I| |unfold init_class; destruct (place _ _) as [p l]; do 3 eexists; reflexivity]. intros x X. unfold prog, program. rewrite !in_app_iff. right. now left.
    - intros i I. cbn [all step]. assert (F : exists t p l, setpos i = (setpos_name i, Message t p l :: allocations i ++ [Place (i_name i)])) by (unfold setpos; destruct (place _ _) as [p l]; do 3 eexists; reflexivity).
      destruct F as (t & p & l & F). rewrite (run_body prog tracing opened (S n) _ _ (Message t p l :: allocations i ++ [Place (i_name i)]) N).
      + cbn [all step]. rewrite all_app, (allocations_run _ _ i I). cbn [all step app]. now rewrite app_nil_r.
      + unfold prog, program. apply in_or_app. left. rewrite <- F. now apply in_map.
  Qed.
  Lemma final_run n : run prog tracing opened (S (S (S n))) "finally" ANone = Some (finishing so opened).
  Proof.
    rewrite (run_body prog tracing opened (S (S n)) "finally" ANone (snd (final_main so)) N) by (unfold prog, program; rewrite !in_app_iff; do 6 right; left; now left).
    cbn [snd final_main all]. rewrite !all_app, all_messages by reflexivity. rewrite (all_code _ None) by reflexivity.
    rewrite (all_each _ _ (fun i => ran (Some (i_name i)) (t_final (i_type i)) ++ map (Freed (i_name i)) (given_vectors i))).
    - cbn [step]. rewrite save_run. unfold finishing. cbn [all step app]. reflexivity.
    - intros i I. rewrite all_app.
      rewrite (class_run final_class "finally" t_final (S n) i I); [|intros x X; unfold prog, program; rewrite !in_app_iff; do 5 right; now left|unfold final_class; destruct (place _ _) as [p l]; do 3 eexists; reflexivity].
      assert (E : all (step prog tracing opened (S (S n)) ANone) (frees i) = Some (map (Freed (i_name i)) (given_vectors i))); [|now rewrite E].
      unfold frees, given_vectors. induction (i_pars i) as [|[p []] l IH]; [reflexivity| |]; cbn [flat_map filter snd fst map app all step]; [now rewrite IH|exact IH].
  Qed.
End Runs.

(** C62: init runs the INITIALIZE blocks of the instrument in order, then sets up all instances in order, then runs the INITIALIZE blocks of every instance in order, and draws the instrument if tracing is on; whatever the blocks are.
    Calls are never nested deeper than three. *)
Theorem C62_init : forall so tracing opened n, named so -> run (program so) tracing opened (3 + n) "init" ANone = Some (initialising so tracing).
Proof. intros so tracing opened n W. exact (init_run so tracing opened W n). Qed.
Print Assumptions C62_init.
(** C62: save, called with a file or without, runs the SAVE blocks of the instrument, then those of every instance in order, and opens and closes a file of its own if there is none. *)
Theorem C62_save : forall so tracing opened n, named so ->
  run (program so) tracing opened (2 + n) "save" ANone = Some (saving so false) /\ run (program so) tracing opened (2 + n) "save" AHandle = Some (saving so opened).
Proof. intros so tracing opened n W. split; [exact (save_run so tracing opened W n ANone)|exact (save_run so tracing opened W n AHandle)]. Qed.
Print Assumptions C62_save.
(** C62: finally opens the file of the simulation, saves everything, runs the FINALLY blocks of the instrument, then for every instance in order its FINALLY blocks before the vectors given to it are freed, and closes the file. *)
Theorem C62_finally : forall so tracing opened n, named so -> run (program so) tracing opened (3 + n) "finally" ANone = Some (finishing so opened).
Proof. intros so tracing opened n W. exact (final_run so tracing opened W n). Qed.
Print Assumptions C62_finally.
(** C62: display draws every instance in order under its name, also those without DISPLAY blocks. *)
Theorem C62_display : forall so tracing opened n, named so -> run (program so) tracing opened (2 + n) "display" ANone = Some (drawing so).
Proof. intros so tracing opened n W. exact (display_run so tracing opened W n). Qed.
Print Assumptions C62_display.

Lemma in_per_instance so f e : In e (per_instance so f) <-> exists i, In i (s_comps so) /\ In e (f i).
Proof. unfold per_instance. rewrite <- flat_map_concat_map. apply in_flat_map. Qed.
Lemma ran_no_memory o l e : In e (ran o l) -> (forall i p, e <> Freed i p) /\ (forall i p, e <> Allocated i p).
Proof. intro H. apply in_map_iff in H as (b & <- & _). split; discriminate. Qed.
Lemma freed_in so opened i p : In (Freed i p) (finishing so opened) <-> exists j, In j (s_comps so) /\ i_name j = i /\ In (p, true) (i_pars j).
Proof.
  unfold finishing, saving. rewrite !in_app_iff, !in_per_instance. split.
  - intros [H|[[H|[H|[H|H]]]|[H|[H|H]]]].
    + destruct H as [H|[]]; discriminate.
    + destruct opened; [destruct H|destruct H as [H|[]]; discriminate].
    + apply ran_no_memory in H as [H _]. now destruct (H i p).
    + destruct H as (j & _ & H). apply ran_no_memory in H as [H _]. now destruct (H i p).
    + destruct opened; [destruct H|destruct H as [H|[]]; discriminate].
    + apply ran_no_memory in H as [H _]. now destruct (H i p).
    + destruct H as (j & J & H). apply in_app_or in H as [H|H]; [apply ran_no_memory in H as [H _]; now destruct (H i p)|]. apply in_map_iff in H as (q & E & H). injection E as E <-. exists j. split; [exact J|]. split; [exact E|].
      apply in_map_iff in H as ([q' v] & E' & H). apply filter_In in H as [H V]. cbn [fst snd] in *. subst. exact H.
    + destruct H as [H|[]]; discriminate.
  - intros (j & J & E & H). do 3 right. left. exists j. split; [exact J|]. apply in_or_app. right. apply in_map_iff. exists p. split; [now rewrite E|]. apply in_map_iff. exists (p, true). split; [reflexivity|]. now apply filter_In.
Qed.
Lemma allocated_in so tracing i p : In (Allocated i p) (initialising so tracing) <-> exists j, In j (s_comps so) /\ i_name j = i /\ In p (vectors j).
Proof.
  unfold initialising. rewrite !in_app_iff, !in_per_instance. split.
  - intros [H|[H|[H|H]]].
    + apply ran_no_memory in H as [_ H]. now destruct (H i p).
    + destruct H as (j & J & H). apply in_app_or in H as [H|[H|[]]]; [|discriminate]. apply in_map_iff in H as (q & E & H). injection E as E <-. eauto.
    + destruct H as (j & _ & H). apply ran_no_memory in H as [_ H]. now destruct (H i p).
    + destruct tracing; [|destruct H]. unfold drawing in H. rewrite !in_app_iff, in_per_instance in H. destruct H as [[H|[]]|[(j & _ & [H|H])|[H|[]]]]; try discriminate. apply ran_no_memory in H as [_ H]. now destruct (H i p).
  - intros (j & J & E & H). right. left. exists j. split; [exact J|]. apply in_or_app. left. apply in_map_iff. exists p. split; [now rewrite E|exact H].
Qed.
(** C62: what finally frees was allocated by init, if instances are given SETTING parameters only, none twice.
    Partial: the converse holds for the vectors given to instances, not for default values; see the refutation. *)
Theorem C62_freed_was_allocated_partial : forall so tracing opened i p, named so -> (forall j, In j (s_comps so) -> NoDup (map fst (i_pars j)) /\ incl (map fst (i_pars j)) (map fst (t_setting (i_type j)))) ->
  (In (Freed i p) (finishing so opened) -> In (Allocated i p) (initialising so tracing)) /\
  (In (Allocated i p) (initialising so tracing) -> (forall j, In j (s_comps so) -> i_name j = i -> In p (map fst (i_pars j))) -> In (Freed i p) (finishing so opened)).
Proof.
  intros so tracing opened i p W G. rewrite freed_in, allocated_in. split.
  - intros (j & J & E & H). destruct (G j J) as [Nd S1]. exists j. split; [exact J|]. split; [exact E|]. unfold vectors. apply filter_In. split; [apply S1; now apply (in_map fst) in H|].
    unfold holds_vector. clear - Nd H. induction (i_pars j) as [|[q v] l IH]; [destruct H|]. cbn [map fst] in Nd. apply NoDup_cons_iff in Nd as [Nq Nd]. cbn [find fst]. destruct H as [H|H].
    + injection H as -> ->. now rewrite String.eqb_refl.
    + destruct (String.eqb_spec q p) as [->|]; [exfalso; apply Nq; now apply (in_map fst) in H|]. auto.
  - intros (j & J & E & H) K. exists j. split; [exact J|]. split; [exact E|]. specialize (K j J E). apply filter_In in H as [_ H]. unfold holds_vector in H. clear - H K.
    induction (i_pars j) as [|[q v] l IH]; [destruct K|]. cbn [find fst] in H. cbn [map fst In] in K. destruct (String.eqb_spec q p) as [->|Nq]; [cbn [snd] in H; subst; now left|]. destruct K as [K|K]; [contradiction|]. right. auto.
Qed.
Print Assumptions C62_freed_was_allocated_partial.

(** * An example *)
Definition bl (t : string) (l : nat) : block := mkBlock t "Mon.comp" l.
Definition mon : ctype := mkType "Mon" [("xs", false); ("ys", true)] [bl "mi" 10] [bl "ms1" 20; bl "ms2" 30] [] [bl "md" 40].
Definition arm : ctype := mkType "Arm" [] [] [] [] [].
Definition life : source := mkSource "test" [mkBlock "ii" "test.instr" 3] [] [mkBlock "if" "test.instr" 50] [mkInst "origin" arm []; mkInst "m1" mon [("xs", true)]; mkInst "m2" mon []].
Example life_named : named life /\ (forall j, In j (s_comps life) -> NoDup (map fst (i_pars j)) /\ incl (map fst (i_pars j)) (map fst (t_setting (i_type j)))).
Proof.
  split; [split; [cbn; repeat (constructor; [cbn; intuition discriminate|]); constructor|split]|].
  - intros i j I J. cbn in I, J. destruct I as [<-|[<-|[<-|[]]]], J as [<-|[<-|[<-|[]]]]; cbn; intro; congruence.
  - intros i I. cbn in I. destruct I as [<-|[<-|[<-|[]]]]; cbn; repeat (constructor; [cbn; intuition discriminate|]); constructor.
  - intros i I. cbn in I. destruct I as [<-|[<-|[<-|[]]]]; cbn; (split; [repeat constructor; auto|intros x X; cbn in *; tauto]).
Qed.
Example life_init : run (program life) false true 3 "init" ANone =
  Some [Ran None "ii"; Placed "origin"; Allocated "m1" "xs"; Allocated "m1" "ys"; Placed "m1"; Allocated "m2" "ys"; Placed "m2"; Ran (Some "m1") "mi"; Ran (Some "m2") "mi"].
Proof. vm_compute. reflexivity. Qed.
Example life_finally : run (program life) false true 3 "finally" ANone =
  Some [Opened; Ran (Some "m1") "ms1"; Ran (Some "m1") "ms2"; Ran (Some "m2") "ms1"; Ran (Some "m2") "ms2"; Ran None "if"; Freed "m1" "xs"; Closed].
Proof. vm_compute. reflexivity. Qed.
Example life_display : run (program life) true true 2 "display" ANone =
  Some [Said "MCDISPLAY: start"; Said "MCDISPLAY: component origin"; Said "MCDISPLAY: component m1"; Ran (Some "m1") "md"; Said "MCDISPLAY: component m2"; Ran (Some "m2") "md"; Said "MCDISPLAY: end"].
Proof. vm_compute. reflexivity. Qed.

(** * Findings *)
(** A vector that an instance takes from the default value of its type is allocated by init and never freed: finally looks only at the parameters given to the instance. *)
Theorem C62_default_vector_refuted : forall so tracing opened j p, named so -> In j (s_comps so) -> In (p, true) (t_setting (i_type j)) -> ~ In p (map fst (i_pars j)) ->
  In (Allocated (i_name j) p) (initialising so tracing) /\ ~ In (Freed (i_name j) p) (finishing so opened).
Proof.
  intros so tracing opened j p W J D G. rewrite allocated_in, freed_in. split.
  - exists j. split; [exact J|]. split; [reflexivity|]. unfold vectors. apply filter_In. split; [now apply (in_map fst) in D|]. unfold holds_vector. destruct (find _ (i_pars j)) as [pv|] eqn:F.
    + apply find_some in F as [F E]. apply String.eqb_eq in E. exfalso. apply G. rewrite <- E. now apply in_map.
    + apply existsb_exists. exists (p, true). split; [exact D|]. cbn [fst snd]. now rewrite String.eqb_refl.
  - intros (k & K & E & H). destruct W as [W _]. assert (k = j); [|subst; apply G; now apply (in_map fst) in H]. clear - W J K E. induction (s_comps so) as [|x l IH]; [destruct J|]. cbn [map] in W. apply NoDup_cons_iff in W as [Wx W].
    destruct J as [->|J], K as [->|K]; auto; exfalso; apply Wx; [rewrite <- E|rewrite E]; now apply in_map.
Qed.
Print Assumptions C62_default_vector_refuted.
Example default_vector : In (Allocated "m2" "ys") (initialising life false) /\ ~ In (Freed "m2" "ys") (finishing life true).
Proof. split; [cbn; auto 10|]. cbn. intuition discriminate. Qed.

(** the place that the message at the start of a function names *)
Definition reported (so : source) (f : string) : option (string * nat) := match find_func (program so) f with Some (Message _ p l :: _) => Some (p, l) | _ => None end.
Lemma reported_class so f t p l body : named so -> In (f, Message t p l :: body) (program so) -> reported so f = Some (p, l).
Proof. intros W I. unfold reported. now rewrite (find_func_in _ _ _ (C62_functions_are_distinct so W) I). Qed.
(** While SAVE of a component runs, the message that is printed when the program is interrupted names file and line of its INITIALIZE section, or only the component if it has none, never of SAVE. *)
Theorem C62_save_place_refuted : forall so i s ss, named so -> In i (s_comps so) -> t_save (i_type i) = s :: ss ->
  reported so (class_name (t_name (i_type i)) "save") = Some (match t_init (i_type i) with b :: _ => (b_file b, b_line b) | [] => (t_name (i_type i), 0) end).
Proof.
  intros so i s ss W I E. unfold program in *. assert (F : exists t, In (class_name (t_name (i_type i)) "save", Message t (fst (place (t_name (i_type i)) (t_init (i_type i)))) (snd (place (t_name (i_type i)) (t_init (i_type i)))) :: map Code (t_save (i_type i))) (program so)).
  { eexists. unfold program. rewrite !in_app_iff. do 3 right. left. apply in_flat_map. exists (i_type i). split; [now apply types_in|]. unfold save_class. rewrite E. cbn [is_nil]. destruct (place _ _) as [p l]. left. reflexivity. }
  destruct F as [t F]. rewrite (reported_class _ _ _ _ _ _ W F). now destruct (t_init (i_type i)).
Qed.
Print Assumptions C62_save_place_refuted.
Example save_place : reported life "class_Mon_save" = Some ("Mon.comp", 10).
Proof. reflexivity. Qed.
(** While DISPLAY of a component without FINALLY runs, the message names no file and line. *)
Theorem C62_display_place_refuted : forall so i s ss, named so -> In i (s_comps so) -> t_display (i_type i) = s :: ss -> t_final (i_type i) = [] ->
  reported so (class_name (t_name (i_type i)) "display") = Some (t_name (i_type i), 0).
Proof.
  intros so i s ss W I E Fn. assert (F : exists t, In (class_name (t_name (i_type i)) "display", Message t (t_name (i_type i)) 0 :: SayOwnName :: map Code (t_display (i_type i))) (program so)).
  { eexists. unfold program. rewrite !in_app_iff. do 7 right. left. apply in_flat_map. exists (i_type i). split; [now apply types_in|]. unfold display_class. rewrite E, Fn. cbn [is_nil]. left. reflexivity. }
  destruct F as [t F]. exact (reported_class _ _ _ _ _ _ W F).
Qed.
Print Assumptions C62_display_place_refuted.
Example display_place : reported life "class_Mon_display" = Some ("Mon", 0).
Proof. reflexivity. Qed.
