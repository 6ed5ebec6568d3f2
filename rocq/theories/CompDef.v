(** Component definitions: parameters, sections and DEFINE COMPONENT ... COPY. *)
From Coq Require Import List String Bool Arith Lia.
From Verif Require Import PyStr.
Import ListNotations.
Local Open Scope string_scope.
Local Open Scope list_scope.
Local Open Scope nat_scope.

(** common/parameters.py ComponentParameter: the name and, as text, type and default *)
Record param := mkP { p_name : string; p_default : string }.
(** comp/comp.py:7-30 Comp; code blocks are texts; category, dependency and metadata are left out *)
Record comp := mkComp {
  c_name : string; c_acc : bool;
  c_define : list param; c_setting : list param; c_output : list param;
  c_share : list string; c_user : list string; c_declare : list string; c_initialize : list string;
  c_trace : list string; c_save : list string; c_final : list string; c_display : list string }.
(** Comp(name), comp/comp.py:8-30 *)
Definition new_comp (n : string) : comp := mkComp n true [] [] [] [] [] [] [] [] [] [] [].

(** common/parameters.py:78-80 parameter_name_present *)
Definition present (l : list param) (n : string) : bool := existsb (fun x => n =?s p_name x) l.
(** comp.py:39-40 has_parameter *)
Definition has_parameter (c : comp) (n : string) : bool := present (c_define c) n || present (c_setting c) n.
(** comp.py:42-47 get_parameter with the default None; the list indexed by [0] is not empty *)
Definition get_parameter (c : comp) (n : string) : option param :=
  if present (c_define c) n then nth_error (filter (fun x => p_name x =?s n) (c_define c)) 0
  else if present (c_setting c) n then nth_error (filter (fun x => p_name x =?s n) (c_setting c)) 0
  else None.
(** comp.py:52-59 parameter_name_used raises *)
Definition name_used (c : comp) (n : string) : bool := present (c_define c) n || present (c_setting c) n || present (c_output c) n.

(** assignment to Comp.define *)
Definition set_define (l : list param) (c : comp) := mkComp (c_name c) (c_acc c) l (c_setting c) (c_output c) (c_share c) (c_user c) (c_declare c) (c_initialize c) (c_trace c) (c_save c) (c_final c) (c_display c).
(** assignment to Comp.setting *)
Definition set_setting (l : list param) (c : comp) := mkComp (c_name c) (c_acc c) (c_define c) l (c_output c) (c_share c) (c_user c) (c_declare c) (c_initialize c) (c_trace c) (c_save c) (c_final c) (c_display c).
(** assignment to Comp.output *)
Definition set_output (l : list param) (c : comp) := mkComp (c_name c) (c_acc c) (c_define c) (c_setting c) l (c_share c) (c_user c) (c_declare c) (c_initialize c) (c_trace c) (c_save c) (c_final c) (c_display c).
(** comp.py:61-76; None stands for RuntimeError *)
Definition add_define (a : param) (c : comp) : option comp := if name_used c (p_name a) then None else Some (set_define (c_define c ++ [a]) c).
(** comp/comp.py:65-67 *)
Definition add_setting (a : param) (c : comp) : option comp := if name_used c (p_name a) then None else Some (set_setting (c_setting c ++ [a]) c).
(** comp/comp.py:69-75 *)
Definition add_output (a : param) (c : comp) : option comp := if present (c_output c) (p_name a) then None else Some (set_output (c_output c ++ [a]) c).

(** the three ways to add a parameter *)
Inductive op := ODefine (a : param) | OSetting (a : param) | OOutput (a : param).
(** one of the three *)
Definition apply (o : op) : comp -> option comp := match o with ODefine a => add_define a | OSetting a => add_setting a | OOutput a => add_output a end.
(** a history in which a refused addition leaves the component as it was *)
Fixpoint history (l : list op) (c : comp) : comp :=
  match l with [] => c | o :: t => history t (match apply o c with Some c' => c' | None => c end) end.

(** ** Reading a definition *)
Inductive section := Block (text : string) | CopyBlock (from : string) (extend : option string).
(** grammar/McComp.g4:42-51 component_definition *)
Record definition := mkDef {
  f_name : string; f_copy : option string; f_noacc : bool;
  f_define : list param; f_setting : list param; f_output : list param;
  f_share : option section; f_user : option string; f_declare : option section; f_initialize : option section;
  f_trace : option section; f_save : option section; f_final : option section; f_display : option section }.

(** comp/visitor.py:61-71: parameter after parameter *)
Fixpoint add_all (add : param -> comp -> option comp) (l : list param) (c : comp) : option comp :=
  match l with [] => Some c | a :: t => match add a c with Some c' => add_all add t c' | None => None end end.

Section Read.
(** reader.get_component: any finder of definitions *)
Variable find : string -> option comp.
(** comp/visitor.py:46-59 and the same for DECLARE (141-154), INITIALIZE (166-179), SAVE (184-197), FINALLY (199-212), DISPLAY (214-227):
    a copied section replaces what is there, a plain one is appended *)
Definition read_section (s : option section) (get : comp -> list string) (now : list string) : option (list string) :=
  match s with
  | None => Some now
  | Some (Block t) => Some (now ++ [t])
  | Some (CopyBlock from e) =>
      match find from with
      | None => None
      | Some c => Some (get c ++ match e with Some t => [t] | None => [] end)
      end
  end.
(** comp/visitor.py:156-164 SHARE: appended in both cases *)
Definition read_share (s : option section) (now : list string) : option (list string) :=
  match s with
  | None => Some now
  | Some (Block t) => Some (now ++ [t])
  | Some (CopyBlock from e) =>
      match find from with
      | None => None
      | Some c => Some (now ++ c_share c ++ match e with Some t => [t] | None => [] end)
      end
  end.
(** comp/visitor.py:21-41: what is there before the children are visited *)
Definition start (d : definition) : option comp :=
  match f_copy d with
  | None => Some (new_comp (f_name d))
  | Some o => match find o with
              | None => None
              | Some c => Some (mkComp (f_name d) (c_acc c) (c_define c) (c_setting c) (c_output c) (c_share c) (c_user c) (c_declare c) (c_initialize c) (c_trace c) (c_save c) (c_final c) (c_display c))
              end
  end.
(** an exception is passed on *)
Definition bind {A B} (o : option A) (f : A -> option B) : option B := match o with Some x => f x | None => None end.
(** visitChildren goes through the clauses in the order of the grammar; comp/visitor.py:61-71 parameters *)
Definition read_definition (d : definition) : option comp :=
  bind (start d) (fun c =>
  bind (add_all add_define (f_define d) c) (fun c =>
  bind (add_all add_setting (f_setting d) c) (fun c =>
  bind (add_all add_output (f_output d) c) (fun c =>
  bind (read_share (f_share d) (c_share c)) (fun share =>
  bind (read_section (f_declare d) c_declare (c_declare c)) (fun declare =>
  bind (read_section (f_initialize d) c_initialize (c_initialize c)) (fun initialize =>
  bind (read_section (f_trace d) c_trace (c_trace c)) (fun trace =>
  bind (read_section (f_save d) c_save (c_save c)) (fun save =>
  bind (read_section (f_final d) c_final (c_final c)) (fun final =>
  bind (read_section (f_display d) c_display (c_display c)) (fun display =>
  Some (mkComp (c_name c) (c_acc c && negb (f_noacc d)) (c_define c) (c_setting c) (c_output c) share
          (c_user c ++ match f_user d with Some t => [t] | None => [] end) declare initialize trace save final display)))))))))))).
End Read.

(** * Facts *)
Lemma present_in l n : present l n = true <-> In n (map p_name l).
Proof.
  unfold present. rewrite existsb_exists, in_map_iff. split.
  - intros (x & I & E). apply String.eqb_eq in E. eauto.
  - intros (x & <- & I). exists x. split; auto. apply String.eqb_refl.
Qed.
Lemma present_not l n : present l n = false <-> ~ In n (map p_name l).
Proof. rewrite <- present_in. destruct (present l n); split; congruence. Qed.
Lemma nodup_snoc {A} (l : list A) x : NoDup l -> ~ In x l -> NoDup (l ++ [x]).
Proof. intros N I. apply NoDup_rev in N. rewrite <- (rev_involutive (l ++ [x])). apply NoDup_rev. rewrite rev_app_distr. cbn. constructor; auto. now rewrite <- in_rev. Qed.
Lemma nodup_mid {A} (l r : list A) x : NoDup (l ++ r) -> ~ In x (l ++ r) -> NoDup (l ++ x :: r).
Proof.
  induction l as [|y l IH]; cbn; intros N I; [now constructor|]. inversion_clear N. constructor.
  - intro J. apply in_app_or in J as [J|[<-|J]]; [apply H; apply in_or_app; auto | apply I; auto | apply H; apply in_or_app; auto].
  - apply IH; auto.
Qed.
(** the names an instance may set are distinct, and so are the output names *)
Definition clear (c : comp) : Prop := NoDup (map p_name (c_define c ++ c_setting c)) /\ NoDup (map p_name (c_output c)).
Lemma apply_clear o c c' : clear c -> apply o c = Some c' -> clear c'.
Proof.
  intros [A B]. destruct o; cbn [apply]; unfold add_define, add_setting, add_output.
  - destruct name_used eqn:E; [discriminate|]. intro H. injection H as <-. unfold name_used in E. apply orb_false_iff in E as [E _]. apply orb_false_iff in E as [E1 E2]. apply present_not in E1, E2.
    split; cbn; auto. rewrite <- app_assoc, map_app. cbn. rewrite map_app in A. apply nodup_mid; auto. intro I. apply in_app_or in I as [I|I]; auto.
  - destruct name_used eqn:E; [discriminate|]. intro H. injection H as <-. unfold name_used in E. apply orb_false_iff in E as [E _]. apply orb_false_iff in E as [E1 E2]. apply present_not in E1, E2.
    split; cbn; auto. rewrite app_assoc, map_app. cbn. apply nodup_snoc; auto. rewrite map_app. intro I. apply in_app_or in I as [I|I]; auto.
  - destruct present eqn:E; [discriminate|]. intro H. injection H as <-. apply present_not in E. split; cbn; auto. rewrite map_app. now apply nodup_snoc.
Qed.
Lemma add_all_clear mk : (forall a c c', mk a c = Some c' -> clear c -> clear c') -> forall l c c', add_all mk l c = Some c' -> clear c -> clear c'.
Proof. intros H. induction l as [|a l IH]; cbn; intros c c' E C; [now injection E as <-|]. destruct (mk a c) as [c1|] eqn:M; [|discriminate]. eauto. Qed.
Lemma add_all_define : forall l c c', add_all add_define l c = Some c' -> c' = set_define (c_define c ++ l) c.
Proof.
  induction l as [|a l IH]; cbn; intros c c' E; [injection E as <-; destruct c; unfold set_define; cbn; now rewrite app_nil_r|].
  unfold add_define in E. destruct name_used; [discriminate|]. apply IH in E. subst c'. unfold set_define. cbn. now rewrite <- app_assoc.
Qed.
Lemma add_all_setting : forall l c c', add_all add_setting l c = Some c' -> c' = set_setting (c_setting c ++ l) c.
Proof.
  induction l as [|a l IH]; cbn; intros c c' E; [injection E as <-; destruct c; unfold set_setting; cbn; now rewrite app_nil_r|].
  unfold add_setting in E. destruct name_used; [discriminate|]. apply IH in E. subst c'. unfold set_setting. cbn. now rewrite <- app_assoc.
Qed.
Lemma add_all_output : forall l c c', add_all add_output l c = Some c' -> c' = set_output (c_output c ++ l) c.
Proof.
  induction l as [|a l IH]; cbn; intros c c' E; [injection E as <-; destruct c; unfold set_output; cbn; now rewrite app_nil_r|].
  unfold add_output in E. destruct present; [discriminate|]. apply IH in E. subst c'. unfold set_output. cbn. now rewrite <- app_assoc.
Qed.
