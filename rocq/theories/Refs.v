(** Component references while an instrument file is read: instr/visitor.py:80-107
    (included files), 109-157 (component instances), 159-172 (names and types),
    253-271 (references), 283-285.

    The parse tree is the input here (the ANTLR parser is trusted).  An instance is kept
    as its name, type, REMOVABLE flag and the names of the instances its AT and ROTATED
    clauses refer to. *)
From Coq Require Import List String Bool Arith Lia.
From Verif Require Import PyStr Expr InstrModel.
Import ListNotations.
Local Open Scope string_scope.
Local Open Scope list_scope.

(** component_ref: PREVIOUS, PREVIOUS(n), or an identifier *)
Inductive cref := CPrev (n : option nat) | CName (s : string).
(** instance_name: an identifier, COPY(identifier), or COPY *)
Inductive dname := NId (s : string) | NCopyId (s : string) | NCopy.
(** component_type: an identifier or COPY(component_ref) *)
Inductive dtype := TName (s : string) | TCopy (r : cref).
(** reference: None is ABSOLUTE; d_rot None is a missing ROTATED clause *)
Record decl := mkDecl { d_removable : bool; d_name : dname; d_type : dtype; d_at : option cref; d_rot : option (option cref) }.
(** an item of a TRACE section, McInstr.g4:48 *)
Inductive item := IComp (d : decl) | IInclude (l : list item).
(** Instance, instr/instance.py, with its references by name *)
Record rinst := mkR { r_name : string; r_type : string; r_removable : bool; r_at : option string; r_rot : option string }.

Section Refs.
  (** decimal digits of a count, and the reader's component types *)
  Variable dec : nat -> string.
  Variable known : string -> bool.

  (** Instr.get_component and last_component, as in InstrModel *)
  Definition r_get (l : list rinst) (n : string) : res rinst :=
    if n =? "PREVIOUS" then match rev l with x :: _ => Ok x | [] => Raise end
    else match find (fun x => r_name x =? n) l with Some x => Ok x | None => Raise end.
  (** Instr.last_component, instr.py:140-150 *)
  Definition r_last (l : list rinst) (count : nat) : res rinst :=
    if (List.length l <? count)%nat then Raise else py_neg_index l count.

  (** the second half of visitComponent_ref, from line 265; a logged error returns None *)
  Definition by_name (dest : option (list rinst)) (st : list rinst) (n : string) : res (option rinst) :=
    if existsb (fun x => r_name x =? n) st then match r_get st n with Ok x => Ok (Some x) | _ => Raise end
    else match dest with
         | Some d => match r_get d n with Ok x => Ok (Some x) | _ => Raise end
         | None => Ok None
         end.
  (** visitComponent_ref 253-271; after a logged error for PREVIOUS the function goes on
      with str(None) as the name *)
  Definition component_ref (dest : option (list rinst)) (st : list rinst) (r : cref) : res (option rinst) :=
    match r with
    | CPrev n =>
        let count := match n with None => 1%nat | Some c => c end in
        if (count <=? List.length st)%nat then match r_last st count with Ok x => Ok (Some x) | _ => Raise end
        else match dest with
             | Some d => match r_last d (count - List.length st) with Ok x => Ok (Some x) | _ => Raise end
             | None => by_name dest st "None"
             end
    | CName n => by_name dest st n
    end.
  (** visitReference 283-285 *)
  Definition reference (dest : option (list rinst)) (st : list rinst) (r : option cref) : res (option rinst) :=
    match r with None => Ok None | Some r => component_ref dest st r end.

  (** the name of a new instance, instr/visitor.py:109-157 *)
  Definition name_of (st : list rinst) (n : dname) : string :=
    match n with
    | NId s => s
    | NCopyId s => (s ++ "_" ++ dec (List.length st + 1))%string
    | NCopy => ("Comp_" ++ dec (List.length st + 1))%string
    end.
  (** the type of a new instance, instr/visitor.py:109-157 *)
  Definition type_of (dest : option (list rinst)) (st : list rinst) (t : dtype) : res string :=
    match t with
    | TName s => if known s then Ok s else Raise
    | TCopy r => match component_ref dest st r with Ok (Some x) => Ok (r_type x) | _ => Raise end
    end.
  (** Instr.add_component, instr.py:119-122 *)
  Definition r_add (st : list rinst) (x : rinst) : res (list rinst) :=
    if existsb (fun y => r_name y =? r_name x) st then Raise else Ok (st ++ [x]).
  (** visitComponent_instance 109-160; without ROTATED the rotation takes AT's reference *)
  Definition component_instance (dest : option (list rinst)) (st : list rinst) (d : decl) : res (list rinst) :=
    match type_of dest st (d_type d) with
    | Ok ty =>
        match reference dest st (d_at d) with
        | Ok a =>
            match (match d_rot d with None => Ok a | Some r => reference dest st r end) with
            | Ok b =>
                let x := mkR (name_of st (d_name d)) ty (d_removable d) (option_map r_name a) (option_map r_name b) in
                match dest with
                | Some _ => if d_removable d then Ok st else r_add st x
                | None => r_add st x
                end
            | _ => Raise
            end
        | _ => Raise
        end
    | _ => Raise
    end.
  (** instr/visitor.py:104-106 *)
  Fixpoint add_all (st : list rinst) (l : list rinst) : res (list rinst) :=
    match l with
    | [] => Ok st
    | x :: t => if r_removable x then add_all st t
                else match r_add st x with Ok st' => add_all st' t | _ => Raise end
    end.
  (** visitInstrument_trace_include 80-107: the included file is read with the including
      instrument's state as destination, and added afterwards *)
  Fixpoint elab (dest : option (list rinst)) (st : list rinst) (it : item) {struct it} : res (list rinst) :=
    match it with
    | IComp d => component_instance dest st d
    | IInclude l =>
        let fix go (sub : list rinst) (l : list item) : res (list rinst) :=
          match l with
          | [] => Ok sub
          | x :: t => match elab (Some st) sub x with Ok s => go s t | _ => Raise end
          end in
        match go [] l with Ok sub => add_all st sub | _ => Raise end
    end.
  (** item after item *)
  Fixpoint elab_list (dest : option (list rinst)) (st : list rinst) (l : list item) : res (list rinst) :=
    match l with
    | [] => Ok st
    | x :: t => match elab dest st x with Ok s => elab_list dest s t | _ => Raise end
    end.
  (** a whole instrument file *)
  Definition read_file (l : list item) : res (list rinst) := elab_list None [] l.

  Lemma elab_include dest st l : elab dest st (IInclude l) =
    match elab_list (Some st) [] l with Ok sub => add_all st sub | _ => Raise end.
  Proof.
    cbn [elab]. assert (E : forall l sub,
      (fix go (sub : list rinst) (l : list item) : res (list rinst) :=
          match l with
          | [] => Ok sub
          | x :: t => match elab (Some st) sub x with Ok s => go s t | _ => Raise end
          end) sub l = elab_list (Some st) sub l).
    { clear l. induction l as [|x t IH]; intro sub; cbn; auto. destruct (elab (Some st) sub x); auto. }
    now rewrite E.
  Qed.

  (** the components of the including instrument, if there is one *)
  Definition dlist (dest : option (list rinst)) : list rinst := match dest with Some d => d | None => [] end.
  (** specification: the names in their order *)
  Definition names (l : list rinst) : list string := map r_name l.

  Lemma r_get_in l n x : r_get l n = Ok x -> In x l.
  Proof.
    unfold r_get. destruct (n =? "PREVIOUS").
    - destruct (rev l) as [|y t] eqn:E; [discriminate|]. intros [= <-]. apply in_rev. rewrite E. now left.
    - destruct (find _ l) as [y|] eqn:E; [|discriminate]. intros [= <-]. now apply find_some in E.
  Qed.
  Lemma py_neg_in {A} (l : list A) c x : py_neg_index l c = Ok x -> In x l.
  Proof.
    unfold py_neg_index. destruct (c =? 0)%nat.
    - destruct (nth_error l 0) as [y|] eqn:E; [|discriminate]. intros [= <-]. now apply nth_error_In in E.
    - destruct (nth_error (rev l) (c - 1)) as [y|] eqn:E; [|discriminate]. intros [= <-].
      apply nth_error_In in E. now apply in_rev.
  Qed.
  Lemma r_last_in l c x : r_last l c = Ok x -> In x l.
  Proof. unfold r_last. destruct (_ <? _)%nat; [discriminate|]. apply py_neg_in. Qed.
  Lemma by_name_in dest st n x : by_name dest st n = Ok (Some x) -> In x (dlist dest ++ st).
  Proof.
    unfold by_name. intro H. apply in_or_app. destruct (existsb _ st).
    - destruct (r_get st n) eqn:E; [|discriminate|discriminate]. injection H as <-. right. now apply r_get_in in E.
    - destruct dest as [d|]; [|discriminate]. destruct (r_get d n) eqn:E; [|discriminate|discriminate].
      injection H as <-. left. now apply r_get_in in E.
  Qed.
  Lemma component_ref_in dest st r x : component_ref dest st r = Ok (Some x) -> In x (dlist dest ++ st).
  Proof.
    destruct r as [n|n]; cbn [component_ref]; [|apply by_name_in].
    set (c := match n with None => 1%nat | Some c => c end). destruct (_ <=? _)%nat.
    - destruct (r_last st c) eqn:E; [|discriminate|discriminate]. intros [= <-]. apply in_or_app. right. now apply r_last_in in E.
    - destruct dest as [d|]; [|apply by_name_in].
      destruct (r_last d _) eqn:E; [|discriminate|discriminate]. intros [= <-]. apply in_or_app. left. now apply r_last_in in E.
  Qed.
  Lemma reference_in dest st r x : reference dest st r = Ok (Some x) -> In x (dlist dest ++ st).
  Proof. destruct r; [apply component_ref_in|discriminate]. Qed.

  (** invariant: references to earlier instances, unique names, nothing removable in an
      included file *)
  Record inv (dest : option (list rinst)) (st : list rinst) : Prop := {
    inv_ref : forall i c r, nth_error st i = Some c -> r_at c = Some r \/ r_rot c = Some r ->
                In r (names (dlist dest ++ firstn i st));
    inv_nodup : NoDup (names st);
    inv_kept : dest <> None -> Forall (fun c => r_removable c = false) st }.

  Lemma existsb_names st n : existsb (fun y => r_name y =? n) st = true <-> In n (names st).
  Proof.
    unfold names. rewrite existsb_exists, in_map_iff. split.
    - intros (x & Hx & E). apply String.eqb_eq in E. eauto.
    - intros (x & E & Hx). exists x. split; auto. now apply String.eqb_eq.
  Qed.
  Lemma NoDup_app_one {A} (l : list A) x : NoDup l -> ~ In x l -> NoDup (l ++ [x]).
  Proof.
    intros N H. induction N as [|y t Hy N IH]; cbn; [repeat constructor; auto|].
    constructor.
    - rewrite in_app_iff. cbn in *. intuition.
    - apply IH. cbn in H. tauto.
  Qed.
  Lemma inv_add dest st x st' : inv dest st -> r_add st x = Ok st' ->
    (forall r, r_at x = Some r \/ r_rot x = Some r -> In r (names (dlist dest ++ st))) ->
    (dest <> None -> r_removable x = false) -> inv dest st'.
  Proof.
    intros [I1 I2 I3] H Hr Hk. unfold r_add in H. destruct (existsb _ st) eqn:E; [discriminate|]. injection H as <-. split.
    - intros i c r Hc Hcr. destruct (Nat.lt_ge_cases i (List.length st)) as [L|L].
      + rewrite nth_error_app1 in Hc by auto. rewrite firstn_app. replace (i - List.length st)%nat with 0%nat by lia.
        cbn. rewrite app_nil_r. eauto.
      + assert (i = List.length st) as ->.
        { assert (i < List.length (st ++ [x]))%nat by (apply nth_error_Some; congruence). rewrite app_length in H. cbn in H. lia. }
        rewrite nth_error_app2, Nat.sub_diag in Hc by lia. cbn in Hc. injection Hc as <-.
        rewrite firstn_app, firstn_all, Nat.sub_diag. cbn. rewrite app_nil_r. eauto.
    - unfold names. rewrite map_app. apply NoDup_app_one; auto. intro C. apply existsb_names in C. congruence.
    - intro D. apply Forall_app. split; auto.
  Qed.
  Lemma component_instance_inv dest st d st' : inv dest st -> component_instance dest st d = Ok st' -> inv dest st'.
  Proof.
    intros I H. unfold component_instance in H. destruct (type_of dest st (d_type d)) as [ty| |]; try discriminate.
    destruct (reference dest st (d_at d)) as [a| |] eqn:Ea; try discriminate.
    destruct (match d_rot d with None => Ok a | Some r => reference dest st r end) as [b| |] eqn:Eb; try discriminate.
    assert (Hr : forall r, option_map r_name a = Some r \/ option_map r_name b = Some r -> In r (names (dlist dest ++ st))).
    { assert (G : forall q o r, reference dest st q = Ok o -> option_map r_name o = Some r -> In r (names (dlist dest ++ st))).
      { intros q o r Hq Ho. destruct o as [o|]; [|discriminate]. injection Ho as <-. apply in_map. eapply reference_in; eauto. }
      intros r [Hr|Hr]; [eapply G; eauto|]. destruct (d_rot d) as [q|]; [eapply G; eauto|].
      injection Eb as <-. eapply G; eauto. }
    destruct dest as [dl|].
    - destruct (d_removable d) eqn:Er; [injection H as <-; auto|]. eapply inv_add; eauto.
    - eapply inv_add; eauto. intro C. now elim C.
  Qed.

  Lemma inv_add_all dest st l : forall st', inv dest st ->
    (forall i c r, nth_error l i = Some c -> r_at c = Some r \/ r_rot c = Some r ->
       In r (names (st ++ firstn i l))) ->
    Forall (fun c => r_removable c = false) l ->
    add_all st l = Ok st' -> inv dest st' /\ st' = st ++ l.
  Proof.
    revert st. induction l as [|x t IH]; intros st st' I H K E; cbn in E.
    - injection E as <-. rewrite app_nil_r. auto.
    - inversion K as [|? ? Kx Kt]; subst. rewrite Kx in E.
      destruct (r_add st x) as [s1| |] eqn:Ea; try discriminate.
      assert (E1 : s1 = st ++ [x]) by (unfold r_add in Ea; destruct (existsb _ st); congruence).
      assert (I1 : inv dest s1).
      { eapply inv_add; eauto. intros r Hr. specialize (H 0%nat x r eq_refl Hr). cbn in H. rewrite app_nil_r in H.
        unfold names in *. rewrite map_app. apply in_or_app. now right. }
      destruct (IH s1 st' I1) as [I2 E2]; auto.
      + intros i c r Hc Hr. specialize (H (S i) c r Hc Hr). cbn in H. subst s1. rewrite <- app_assoc. exact H.
      + split; auto. rewrite E2, E1, <- app_assoc. reflexivity.
  Qed.

  Section ItemInd.
    Variable P : item -> Prop.
    Hypothesis Hc : forall d, P (IComp d).
    Hypothesis Hi : forall l, Forall P l -> P (IInclude l).
    (** proof helper: induction over items *)
    Fixpoint item_rect' (it : item) : P it :=
      match it with
      | IComp d => Hc d
      | IInclude l => Hi l ((fix go l := match l return Forall P l with
                                        | [] => Forall_nil _
                                        | x :: t => Forall_cons x (item_rect' x) (go t)
                                        end) l)
      end.
  End ItemInd.

  Lemma elab_inv it : forall dest st st', inv dest st -> elab dest st it = Ok st' -> inv dest st'.
  Proof.
    induction it as [d|l IH] using item_rect'; intros dest st st' I H.
    - eapply component_instance_inv; eauto.
    - rewrite elab_include in H. destruct (elab_list (Some st) [] l) as [sub| |] eqn:E; try discriminate.
      assert (Is : inv (Some st) sub).
      { assert (G : forall l s, Forall (fun it => forall dest st st', inv dest st -> elab dest st it = Ok st' -> inv dest st') l ->
                  inv (Some st) s -> forall sub, elab_list (Some st) s l = Ok sub -> inv (Some st) sub).
        { clear. intro l. induction l as [|x t IHt]; intros s F Is sub H; cbn in H; [injection H as <-; auto|].
          inversion F as [|? ? Fx Ft]; subst. destruct (elab (Some st) s x) as [s1| |] eqn:Ex; try discriminate.
          exact (IHt s1 Ft (Fx _ _ _ Is Ex) sub H). }
        eapply G; eauto. split.
        - intros i c r Hn. destruct i; discriminate.
        - constructor.
        - constructor. }
      destruct Is as [S1 S2 S3]. exact (proj1 (inv_add_all dest st sub st' I S1 (S3 ltac:(discriminate)) H)).
  Qed.
  Lemma elab_list_inv l : forall dest st st', inv dest st -> elab_list dest st l = Ok st' -> inv dest st'.
  Proof.
    induction l as [|x t IH]; intros dest st st' I H; cbn in H; [injection H as <-; auto|].
    destruct (elab dest st x) eqn:E; try discriminate. exact (IH _ _ _ (elab_inv _ _ _ _ I E) H).
  Qed.
End Refs.
