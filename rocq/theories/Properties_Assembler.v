(** C50: interactive and file based placement agree. *)
From Coq Require Import List String Ascii Bool Arith Lia.
From Verif Require Import PyStr Expr InstrModel Refs Assembler.
Import ListNotations.
Local Open Scope string_scope.
Local Open Scope list_scope.
Local Open Scope nat_scope.

(** the reference of a clause [RELATIVE s] in a file, by the words of grammar/McCommon.g4:6-8, 82, 100 *)
Definition file_reference (s : string) : option cref :=
  if existsb (String.eqb s) ["ABSOLUTE"; "Absolute"; "absolute"] then None
  else if existsb (String.eqb s) ["PREVIOUS"; "Previous"; "previous"] then Some (CPrev None)
  else Some (CName s).
(** spellings on which the Assembler and the lexer agree *)
Definition same_spelling (s : string) : Prop := (lower s = "absolute" -> In s ["ABSOLUTE"; "Absolute"; "absolute"]) /\ s <> "Previous" /\ s <> "previous".

Section Spec.
Variables (E O : Type).
Variable check_expr : pyval O -> res E.
(** the clause with the same meaning: three coordinates and the reference *)
Inductive clause : pyval O -> E * E * E -> option cref -> Prop :=
| cl_triple x y z ex ey ez : check_expr x = Ok ex -> check_expr y = Ok ey -> check_expr z = Ok ez -> clause (PSeq [x; y; z]) (ex, ey, ez) None
| cl_none x y z ex ey ez : check_expr x = Ok ex -> check_expr y = Ok ey -> check_expr z = Ok ez -> clause (PSeq [PSeq [x; y; z]; PNone]) (ex, ey, ez) None
| cl_str x y z ex ey ez s : check_expr x = Ok ex -> check_expr y = Ok ey -> check_expr z = Ok ez -> same_spelling s -> clause (PSeq [PSeq [x; y; z]; PStr s]) (ex, ey, ez) (file_reference s)
| cl_inst x y z ex ey ez i : check_expr x = Ok ex -> check_expr y = Ok ey -> check_expr z = Ok ez -> clause (PSeq [PSeq [x; y; z]; PInst i]) (ex, ey, ez) (Some (CName (r_name i))).
(** a missing rotate argument is a missing ROTATED clause *)
Inductive rot_clause : pyval O -> option (E * E * E * option cref) -> Prop :=
| rc_none : rot_clause PNone None
| rc_some a v r : clause a v r -> rot_clause a (Some (v, r)).
End Spec.
Arguments clause {E O}. Arguments rot_clause {E O}.

Definition as_decl (n ty : string) (ra : option cref) (rot : option (option cref)) : decl := mkDecl false (NId n) (TName ty) ra rot.

Lemma spelled s : same_spelling s -> lower s =?s "absolute" = existsb (String.eqb s) ["ABSOLUTE"; "Absolute"; "absolute"].
Proof.
  intros [A _]. destruct (lower s =?s "absolute") eqn:L.
  - apply String.eqb_eq in L. apply A in L. symmetry. apply existsb_exists. exists s. split; auto. apply String.eqb_refl.
  - symmetry. apply not_true_iff_false. intro X. apply existsb_exists in X as (y & Y & H). apply String.eqb_eq in H. subst y. rewrite <- not_true_iff_false in L. apply L. cbn in Y.
    destruct Y as [<-|[<-|[<-|[]]]]; reflexivity.
Qed.
Definition objects {O} (st : list rinst) (a : pyval O) : Prop := match a with PSeq [_; PInst i] => find (fun x => r_name x =?s r_name i) st = Some i /\ r_name i <> "PREVIOUS" | _ => True end.
(** what the file reader makes of the same reference, when the Assembler accepts it *)
Lemma clause_agree E O (check : pyval O -> res E) zf st a v r : clause check a v r -> objects st a ->
  match handle_at_rotate E O check zf st a with
  | Ok (v', x) => v' = v /\ reference None st r = Ok x /\ (x = None <-> r = None)
  | _ => reference None st r = Ok None /\ r <> None
  end.
Proof.
  assert (C : forall x y z ex ey ez, check x = Ok ex -> check y = Ok ey -> check z = Ok ez -> coords E O check (PSeq [x; y; z]) = Ok (ex, ey, ez)).
  { intros x y z ex ey ez X Y Z. unfold coords. cbn. now rewrite X, Y, Z. }
  intros K B. destruct K as [x y z ex ey ez X Y Z|x y z ex ey ez X Y Z|x y z ex ey ez s X Y Z S|x y z ex ey ez i X Y Z]; unfold handle_at_rotate; cbn [py_len List.length py_items resolve].
  - cbn [lower]. change (lower "ABSOLUTE" =?s "absolute") with true. cbn [rbind]. rewrite (C _ _ _ _ _ _ X Y Z). cbn [rbind reference]. repeat split.
  - cbn [rbind]. rewrite (C _ _ _ _ _ _ X Y Z). cbn [rbind reference]. repeat split.
  - pose proof (spelled s S) as L. unfold file_reference. rewrite <- L. destruct (lower s =?s "absolute") eqn:A.
    + cbn [rbind]. rewrite (C _ _ _ _ _ _ X Y Z). cbn [rbind reference]. repeat split.
    + destruct S as (_ & P1 & P2). unfold r_get. destruct (s =?s "PREVIOUS") eqn:P.
      * apply String.eqb_eq in P. subst s. cbn [existsb String.eqb orb reference component_ref]. change ("PREVIOUS" =?s "PREVIOUS") with true. cbn [orb]. cbn [reference component_ref]. destruct (rev st) as [|l0 t] eqn:R; cbn [rbind].
        -- assert (st = []) by (rewrite <- (rev_involutive st), R; reflexivity). subst st. cbn. split; [reflexivity|discriminate].
        -- rewrite (C _ _ _ _ _ _ X Y Z). cbn [rbind]. split; [reflexivity|]. split; [|split; discriminate]. assert (Ln : 1 <= List.length st) by (rewrite <- rev_length, R; cbn; lia).
           change (reference None st (Some (CPrev None)) = Ok (Some l0)). cbn [reference component_ref]. rewrite (proj2 (Nat.leb_le _ _) Ln). unfold r_last. rewrite (proj2 (Nat.ltb_ge _ _) Ln). unfold py_neg_index. cbn [Nat.eqb Nat.sub]. rewrite R. reflexivity.
      * assert (Q : existsb (String.eqb s) ["PREVIOUS"; "Previous"; "previous"] = false).
        { cbn. rewrite P. apply String.eqb_neq in P1, P2. now rewrite P1, P2. }
        rewrite Q. cbn [reference component_ref]. unfold by_name, r_get. rewrite P. destruct (find (fun x0 => r_name x0 =?s s) st) as [x0|] eqn:F; cbn [rbind].
        -- rewrite (C _ _ _ _ _ _ X Y Z). cbn [rbind]. assert (Ex : existsb (fun x0 => r_name x0 =?s s) st = true) by (apply existsb_exists; apply find_some in F as [F1 F2]; eauto). rewrite Ex. repeat split; discriminate.
        -- assert (Ex : existsb (fun x0 => r_name x0 =?s s) st = false). { apply not_true_iff_false. intro H. apply existsb_exists in H as (w & W & H). rewrite (find_none _ _ F w W) in H. discriminate. }
           rewrite Ex. split; [reflexivity|discriminate].
  - cbn [rbind]. rewrite (C _ _ _ _ _ _ X Y Z). cbn [rbind reference component_ref]. destruct B as [B NP]. unfold by_name, r_get. apply String.eqb_neq in NP. rewrite NP, B.
    assert (Ex : existsb (fun x0 => r_name x0 =?s r_name i) st = true) by (apply existsb_exists; apply find_some in B as [F1 F2]; eauto). rewrite Ex. repeat split; discriminate.
Qed.

(** one call: if the Assembler accepts it, the file reader reads the corresponding instance with the same references, and the coordinates are those given *)
Theorem C50_call_agrees_with_file_partial : forall E O dec known check zf (st st' : list (ainst E)) (c : call O) va ra rot,
  clause check (c_at c) va ra -> rot_clause check (c_rotate c) rot ->
  objects (map a_inst st) (c_at c) -> objects (map a_inst st) (c_rotate c) ->
  (forall v, rot = Some (v, None) -> ra = None) ->
  place E O known check zf st c = Ok st' ->
  component_instance dec known None (map a_inst st) (as_decl (c_name c) (c_type c) ra (option_map snd rot)) = Ok (map a_inst st') /\
  exists x, st' = st ++ [x] /\ a_at x = va /\ a_rot x = match rot with Some (v, _) => v | None => (zf, zf, zf) end.
Proof.
  intros E O dec known check zf st st' c va ra rot Ka Kr Oa Or Abs H. unfold place in H. destruct (known (c_type c)) eqn:Kn; [|discriminate].
  pose proof (clause_agree E O check zf (map a_inst st) _ _ _ Ka Oa) as A. destruct (handle_at_rotate E O check zf (map a_inst st) (c_at c)) as [[va' xa]| |]; cbn [rbind] in H; try discriminate.
  destruct A as (-> & Ra & Na). unfold handle_rotate in H.
  unfold component_instance, as_decl. cbn [d_type d_at d_rot d_name d_removable type_of]. rewrite Kn, Ra.
  destruct Kr as [|a v r Kr].
  - cbn [handle_at_rotate rbind] in H. cbn [option_map]. unfold r_add. cbn [r_name name_of]. destruct existsb eqn:X; [discriminate|]. injection H as <-. rewrite map_app. cbn [map a_inst]. split; [reflexivity|].
    eexists. split; [reflexivity|]. cbn. auto.
  - pose proof (clause_agree E O check zf (map a_inst st) a v r Kr Or) as B. destruct (handle_at_rotate E O check zf (map a_inst st) a) as [[vr' xr]| |]; cbn [rbind] in H; try discriminate.
    destruct B as (-> & Rr & Nr). cbn [option_map snd]. rewrite Rr. unfold r_add. cbn [r_name name_of]. destruct existsb eqn:X; [discriminate|]. injection H as <-. rewrite map_app. cbn [map a_inst].
    assert (G : match xr with Some x => Some x | None => xa end = xr). { destruct xr; auto. apply Na. apply (Abs v). f_equal. f_equal. now apply Nr. }
    rewrite G. split; [reflexivity|]. eexists. split; [reflexivity|]. cbn. auto.
Qed.
Print Assumptions C50_call_agrees_with_file_partial.

(** a reference to a component that does not exist is refused (the file reader logs an error and goes on with ABSOLUTE, C19) *)
Theorem C50_unknown_reference_is_refused : forall E O known check zf (st : list (ainst E)) (c : call O) v s,
  c_at c = PSeq [v; PStr s] \/ c_rotate c = PSeq [v; PStr s] -> lower s <> "absolute" -> s <> "PREVIOUS" -> ~ In s (map r_name (map a_inst st)) ->
  place E O known check zf st c = Raise \/ place E O known check zf st c = Fuel.
Proof.
  intros E O known check zf st c v s A L P N.
  assert (F : handle_at_rotate E O check zf (map a_inst st) (PSeq [v; PStr s]) = Raise).
  { unfold handle_at_rotate. cbn [py_len List.length py_items resolve]. apply String.eqb_neq in L, P. rewrite L. unfold r_get. rewrite P.
    destruct (find _ _) as [x|] eqn:E1; [|reflexivity]. apply find_some in E1 as [I E1]. apply String.eqb_eq in E1. subst s. destruct N. now apply in_map. }
  unfold place. destruct (known (c_type c)); [|auto]. destruct A as [A|A]; rewrite A.
  - rewrite F. cbn. auto.
  - destruct (handle_at_rotate E O check zf (map a_inst st) (c_at c)) as [[va xa]| |]; cbn [rbind]; auto. unfold handle_rotate. rewrite F. cbn. auto.
Qed.
Print Assumptions C50_unknown_reference_is_refused.

(** a whole program of calls that refers to components by name gives the instrument of the corresponding file *)
Definition by_text {O} (a : pyval O) : Prop := match a with PSeq [_; PInst _] => False | _ => True end.
Inductive written {E O} (check : pyval O -> res E) : call O -> decl -> Prop :=
| wr c va ra rot : clause check (c_at c) va ra -> rot_clause check (c_rotate c) rot -> by_text (c_at c) -> by_text (c_rotate c) ->
    (forall v, rot = Some (v, None) -> ra = None) -> written check c (as_decl (c_name c) (c_type c) ra (option_map snd rot)).
Theorem C50_program_agrees_with_file_partial : forall E O dec known check zf (calls : list (call O)) decls (st : list (ainst E)),
  Forall2 (written check) calls decls -> program E O known check zf [] calls = Ok st -> read_file dec known (map IComp decls) = Ok (map a_inst st).
Proof.
  intros E O dec known check zf calls decls st F. unfold read_file. change (@nil rinst) with (map (@a_inst E) []). generalize (@nil (ainst E)) at 1 2. revert st.
  assert (T : forall st (a : pyval O), by_text a -> objects st a). { intros st a. destruct a as [| | | |l]; cbn; auto. destruct l as [|? [|[] [|]]]; tauto. }
  induction F as [|c d calls decls W F IH]; intros st s0 P; cbn in P.
  - injection P as <-. reflexivity.
  - destruct (place E O known check zf s0 c) as [s1| |] eqn:Pl; cbn [rbind] in P; try discriminate. destruct (c_params c); [|discriminate].
    destruct W as [c va ra rot Ka Kr Ta Tr Abs]. cbn [map elab_list elab].
    destruct (C50_call_agrees_with_file_partial E O dec known check zf s0 s1 c va ra rot Ka Kr (T _ _ Ta) (T _ _ Tr) Abs Pl) as [-> _]. now apply IH.
Qed.
Print Assumptions C50_program_agrees_with_file_partial.

(** ** What is wrong *)
(** ROTATED ... ABSOLUTE cannot be expressed when AT is relative: the angles become relative to the reference of AT, for every reference, every angle
    and both ways of writing it *)
Theorem C50_absolute_rotation_refuted : forall E O known check zf (st st' : list (ainst E)) (c : call O) x y z i,
  c_rotate c = PSeq [x; y; z] \/ c_rotate c = PSeq [PSeq [x; y; z]; PStr "ABSOLUTE"] ->
  place E O known check zf st c = Ok st' -> r_at (a_inst (List.last st' i)) = r_rot (a_inst (List.last st' i)).
Proof.
  intros E O known check zf st st' c x y z i R P. unfold place in P. destruct (known (c_type c)); [|discriminate].
  destruct (handle_at_rotate E O check zf (map a_inst st) (c_at c)) as [[va xa]| |]; cbn [rbind] in P; try discriminate. unfold handle_rotate in P.
  assert (H : handle_at_rotate E O check zf (map a_inst st) (c_rotate c) = rbind (coords E O check (PSeq [x; y; z])) (fun v => Ok (v, None))) by (destruct R as [->| ->]; reflexivity).
  rewrite H in P. destruct (coords E O check (PSeq [x; y; z])) as [v| |]; cbn [rbind] in P; try discriminate. destruct existsb; [discriminate|]. injection P as <-. rewrite last_last. reflexivity.
Qed.
Print Assumptions C50_absolute_rotation_refuted.

(** an Instance of another instrument is accepted as reference *)
Theorem C50_foreign_instance_refuted : forall E O known check zf (c : call O) x y z ex ey ez i,
  c_at c = PSeq [PSeq [x; y; z]; PInst i] -> c_rotate c = PNone -> known (c_type c) = true -> check x = Ok ex -> check y = Ok ey -> check z = Ok ez ->
  exists r, place E O known check zf [] c = Ok [r] /\ r_at (a_inst r) = Some (r_name i).
Proof.
  intros E O known check zf c x y z ex ey ez i A R K X Y Z. unfold place. rewrite K, A, R. cbn [handle_at_rotate py_len List.length py_items resolve rbind]. unfold coords. cbn [py_len List.length py_items]. rewrite X, Y, Z. cbn.
  eexists. split; reflexivity.
Qed.
Print Assumptions C50_foreign_instance_refuted.

(** spellings: a component called aBSOLUTE cannot be a reference here, and previous does not mean PREVIOUS *)
Theorem C50_spellings_refuted : forall O (st : list rinst) i,
  resolve O (st ++ [i]) (PStr "aBSOLUTE") = Ok None /\ file_reference "aBSOLUTE" = Some (CName "aBSOLUTE") /\
  (~ In "previous" (map r_name (st ++ [i])) -> resolve O (st ++ [i]) (PStr "previous") = Raise) /\ reference None (st ++ [i]) (file_reference "previous") = Ok (Some i).
Proof.
  intros O st i. repeat split.
  - intro N. cbn [resolve]. change (lower "previous" =?s "absolute") with false. unfold r_get. change ("previous" =?s "PREVIOUS") with false. cbv iota.
    destruct (find _ _) as [x|] eqn:E1; [|reflexivity]. apply find_some in E1 as [I E1]. apply String.eqb_eq in E1. destruct N. rewrite <- E1. now apply in_map.
  - change (file_reference "previous") with (Some (CPrev None)). cbn [reference component_ref]. rewrite (proj2 (Nat.leb_le 1 _)) by (rewrite app_length; cbn; lia). unfold r_last.
    rewrite (proj2 (Nat.ltb_ge _ 1)) by (rewrite app_length; cbn; lia). unfold py_neg_index. cbn [Nat.eqb Nat.sub]. rewrite rev_app_distr. reflexivity.
Qed.
Print Assumptions C50_spellings_refuted.

(** a call that fails at its parameters leaves the component behind, so that the corrected call is refused *)
Theorem C50_failed_call_leaves_component_refuted : forall E O known check zf (st st' : list (ainst E)) (c : call O),
  place E O known check zf st c = Ok st' -> c_params c = false ->
  component E O known check zf st c = (st', true) /\ st' <> st /\
  forall c', c_name c' = c_name c -> snd (component E O known check zf st' c') = true.
Proof.
  intros E O known check zf st st' c P F. unfold component at 1. rewrite P, F. split; [reflexivity|].
  assert (S : exists x, st' = st ++ [x] /\ r_name (a_inst x) = c_name c).
  { unfold place in P. destruct (known (c_type c)); [|discriminate]. destruct (handle_at_rotate _ _ _ _ _ _) as [[va xa]| |]; cbn [rbind] in P; try discriminate.
    destruct (handle_rotate _ _ _ _ _ _ _) as [[vr xr]| |]; cbn [rbind] in P; try discriminate. destruct existsb; [discriminate|]. injection P as <-. eexists. split; reflexivity. }
  destruct S as (x & -> & N). split; [intro H; apply (f_equal (@List.length _)) in H; rewrite app_length in H; cbn in H; lia|].
  intros c' E'. unfold component. destruct (place E O known check zf (st ++ [x]) c') as [s2| |] eqn:P2; auto. exfalso. unfold place in P2. destruct (known (c_type c')); [|discriminate].
  destruct (handle_at_rotate _ _ _ _ _ (c_at c')) as [[va xa]| |]; cbn [rbind] in P2; try discriminate. destruct (handle_rotate _ _ _ _ _ _ _) as [[vr xr]| |]; cbn [rbind] in P2; try discriminate.
  destruct existsb eqn:X; [discriminate|]. rewrite <- not_true_iff_false in X. apply X. apply existsb_exists. exists (a_inst x). split; [rewrite map_app; apply in_or_app; right; cbn; auto|]. rewrite N, E'. apply String.eqb_refl.
Qed.
Print Assumptions C50_failed_call_leaves_component_refuted.

(** a program of three components *)
Definition chk (v : pyval nat) : res nat := match v with PObj n => Ok n | _ => Raise end.
Definition v3 (a b c : nat) : pyval nat := PSeq [PObj a; PObj b; PObj c].
Definition prog3 : list (call nat) := [mkCall "Origin" "Arm" (v3 0 0 0) PNone true; mkCall "Guide" "Guide" (PSeq [v3 0 0 2; PStr "Origin"]) (PSeq [v3 0 1 0; PStr "PREVIOUS"]) true;
  mkCall "Det" "PSD" (PSeq [v3 1 0 0; PStr "PREVIOUS"]) PNone true].
Example C50_nonvacuous : exists decls st, Forall2 (written chk) prog3 decls /\ program nat nat (fun _ => true) chk 0 [] prog3 = Ok st /\
  map (fun x => (r_name (a_inst x), r_at (a_inst x), r_rot (a_inst x), a_rot x)) st = [("Origin", None, None, (0, 0, 0)); ("Guide", Some "Origin", Some "Origin", (0, 1, 0)); ("Det", Some "Guide", Some "Guide", (0, 0, 0))].
Proof.
  do 2 eexists. split; [|split; [reflexivity|reflexivity]].
  assert (S : same_spelling "Origin" /\ same_spelling "PREVIOUS"). { split; (split; [cbn; discriminate|split; discriminate]). } destruct S as [S1 S2].
  constructor; [|constructor; [|constructor; [|constructor]]].
  - eapply wr with (rot := None); [apply cl_triple; reflexivity|constructor|exact I|exact I|discriminate].
  - eapply wr; [apply cl_str; [reflexivity|reflexivity|reflexivity|exact S1]|apply rc_some, cl_str; [reflexivity|reflexivity|reflexivity|exact S2]|exact I|exact I|intros v H; discriminate].
  - eapply wr with (rot := None); [apply cl_str; [reflexivity|reflexivity|reflexivity|exact S2]|constructor|exact I|exact I|discriminate].
Qed.
