(** Properties C07, C08, the hash part of C09, and C53: the text of expressions and what C and the instrument grammar read in it. *)
From Coq Require Import List String Ascii Bool QArith Qcanon Qround ZArith Qabs Arith Lia Lqa.
From Verif Require Import PyStr Expr ExprSem ExprFacts ExprTotal ExprEq Properties_Expr Print Signs.
Import ListNotations.
Local Open Scope string_scope.
Local Open Scope list_scope.
Local Open Scope nat_scope.

(** * C07 *)
(** An interpretation gives operations that carry the name of a C function the meaning of a call of that function. *)
Definition calls (IB : binop -> list val -> list val -> option val) (IU : unop -> list val -> option val) : Prop :=
  (forall s xs, IU (UNamed s) xs = IB BCall [VS s] xs) /\ (forall s xs ys, IB (BNamed s) xs ys = IB BCall [VS s] (xs ++ ys)).
(** The text [ts] is read under table [tb] as an expression that has, for every such interpretation and every assignment, the
    value of [n]; the assignment of the reader has to give the written form of the identifiers of [n] their values, and
    may leave every other name undefined (in the generated program the bare name of an instrument parameter means nothing). *)
Definition means (tb : table) (nm : otype -> string -> string) (ts : list tok) (n : node) : Prop :=
  forall IB IU env env', calls IB IU -> (forall o s, In (o, s) (names n) -> env' (nm o s) = env s) ->
    exists n', reads tb ts n' /\ den IB IU env' false n' = den IB IU env false n.

Lemma tight_means tb nm glue n : (exists p, pinfo tb "-" = Some (UNeg, p)) -> tight tb nm glue n -> means tb nm (print nm glue n) n.
Proof.
  intros Hp T IB IU env env' [HU HB] He.
  assert (A : Forall (agrees nm env env') (names n)) by (apply Forall_forall; intros [o s]; apply He).
  destruct (tight_ok tb nm glue IB IU env env' HU HB Hp n T A) as (n' & Dn & G). exists n'. split; [|exact Dn].
  destruct (closed_here tb nm glue env env' n n' [] G I) as (k & K). exists k. intros f Hf. specialize (K f Hf). now rewrite app_nil_r in K.
Qed.

(** A tree in which every operand of an operator that prints no brackets binds tight enough prints a text that C reads with the
    same value.  Missing from the full statement: trees that are not of this shape, see the refutations. *)
Theorem C07_c_reads_the_value_partial : forall nm n, tight c_table nm true n -> means c_table nm (print nm true n) n.
Proof. intros. apply tight_means; [|assumption]. eexists. reflexivity. Qed.
Print Assumptions C07_c_reads_the_value_partial.

(** the same for the reader of instrument files *)
Theorem C07_instrument_reads_the_value_partial : forall n, tight mc_table plain true n -> means mc_table plain (print plain true n) n.
Proof. intros. apply tight_means; [|assumption]. eexists. reflexivity. Qed.
Print Assumptions C07_instrument_reads_the_value_partial.

(** Whatever was read from an instrument file is held with a sign in front of a sign removed ([settle], Signs.v); what is held prints
    as a text that is read with the same value, for every assignment that gives it one: writing and reading an instrument keeps its
    expressions (as long as they are not rearranged in between). *)
Theorem C07_read_write_read : forall ts n, reads mc_table ts n -> forall IB IU env v, calls IB IU -> den IB IU env false n = Some v ->
  exists n', reads mc_table (print plain true (settle n)) n' /\ den IB IU env false n' = Some v.
Proof.
  intros ts n H IB IU env v C D. apply reads_at in H as (k & K).
  destruct (read_tight mc_table mc_table_ok k) as (R & _). destruct (R 0 ts n [] (Nat.le_0_l _) K) as (T & _). apply settle_fits in T as (T & _).
  apply (settle_value IB IU env) in D. destruct (C07_instrument_reads_the_value_partial _ T IB IU env env C (fun _ _ _ => eq_refl)) as (n' & R' & D').
  exists n'. split; [exact R'|]. now rewrite D'.
Qed.
Print Assumptions C07_read_write_read.

(** - -a + -(-b) *)
Example C07_read_write_read_signs : exists n, reads mc_table [TOp "-"; TOp "-"; TId "a"; TOp "+"; TOp "-"; TL; TOp "-"; TId "b"; TR] n
  /\ print plain true (settle n) = [TL; TId "a"; TOp "+"; TOp "-"; TL; TOp "-"; TId "b"; TR; TR].
Proof. eexists. split; [apply (reads_by _ 30); vm_compute; reflexivity|vm_compute; reflexivity]. Qed.

Definition id_ (s : string) := NVal (PStr s) DUndef OId.
Definition par (s : string) := NVal (PStr s) DUndef OParam.
(** fabs(a) * -(2 + b) / c[1] < d ? x.y : -1, with a a parameter *)
Definition ex_tree : node :=
  NTri DUndef [NBin BLt DUndef [NBin BDiv DUndef [NBin BMul DUndef [NBin BCall DUndef [NVal (PStr "fabs") DUndef OFunc] [par "a"]]
      [NUn UNeg DUndef [NBin BAdd DUndef [cint 2] [id_ "b"]]]] [NBin BItem DUndef [id_ "c"] [cint 1]]] [id_ "d"]]
    [NBin BStruct DUndef [id_ "x"] [id_ "y"]] [cint (-1)].
Example C07_c_example : tight c_table (prefixed "_instrument_var._parameters.") true ex_tree.
Proof.
  cbn. unfold top. assert (L : forall a b, a <=? b = true -> a <= b) by (intros; now apply Nat.leb_le).
  repeat match goal with |- _ /\ _ => split | |- exists p q, Some _ = Some (_, p, q) /\ _ => do 2 eexists; split; [reflexivity|] | |- exists p, Some _ = Some (_, p) /\ _ => eexists; split; [reflexivity|]
    | |- _ <= _ => lia | |- _ < _ => unfold lt; lia | |- True => exact I | |- true = true \/ _ => now left | |- _ = _ => reflexivity end.
  - intros _ _ H. exact H.
Qed.
(** the assignment of the generated program: the parameter a is known under its prefixed name only *)
Example C07_c_example_bare_name_unknown : let env s := if s =?s "c" then None else Some (VN (Z2Qc 5)) in
  let env' s := if s =?s "_instrument_var._parameters.a" then env "a" else if s =?s "a" then None else env s in
  env' "a" = None /\ forall o s, In (o, s) (names ex_tree) -> env' (prefixed "_instrument_var._parameters." o s) = env s.
Proof.
  split; [reflexivity|]. intros o s H. cbn in H. repeat (destruct H as [H|H]; [inversion H; reflexivity|]). destruct H.
Qed.
Example C07_read_example : exists n, reads mc_table [TOp "-"; TId "a"; TOp "^"; TNum (Z2Qc 2); TOp "*"; TL; TId "b"; TOp "%"; TNum (Z2Qc 3); TR] n.
Proof. eexists. apply (reads_by _ 20). vm_compute. reflexivity. Qed.

(** a text that has another value than the tree it was printed from *)
Definition misread (tb : table) (ts : list tok) (n : node) : Prop :=
  exists n' IB IU env v v', reads tb ts n' /\ den IB IU env false n = Some v /\ den IB IU env false n' = Some v' /\ v <> v'.
Definition numenv (l : list (string * Z)) (s : string) : option val := option_map (fun z => VN (Z2Qc z)) (look l s).
(** C's operators on integers, enough of them for the examples *)
Definition cz (q : Qc) : Z := Qfloor (this q).
Definition b2v (b : bool) : val := VN (if b then 1%Qc else 0%Qc).
Definition trunc (q : Qc) : Qc := Z2Qc (Z.quot (Qnum (this q)) (Z.pos (Qden (this q)))).
Definition CI (op : binop) (xs ys : list val) : option val :=
  match xs, ys with
  | [VN a], [VN b] => match op with
      | BMod => Some (VN (Z2Qc (Z.rem (cz a) (cz b)))) | BShl => Some (VN (Z2Qc (Z.shiftl (cz a) (cz b)))) | BShr => Some (VN (Z2Qc (Z.shiftr (cz a) (cz b))))
      | BLt => Some (b2v (Qc_ltb a b)) | BEq => Some (b2v (Qc_eqb a b))
      | BOr => Some (b2v (negb (Qc_eqb a 0 && Qc_eqb b 0))) | BAnd => Some (b2v (negb (Qc_eqb a 0) && negb (Qc_eqb b 0)))
      | BPow => Some (VN (Z2Qc (Z.pow (cz a) (cz b)))) | BNamed _ => Some (VN (Z2Qc (Z.lxor (cz a) (cz b)))) | _ => None end
  | [VS _], [VN a] => match op with BCall => Some (VN (trunc (Qc_abs a))) | _ => None end
  | [VN a], [VS s] => match op with BStruct => Some (b2v (s =?s "y")) | _ => None end
  | _, _ => None end.
Definition CU (op : unop) (xs : list val) : option val := match op, xs with UNot, [VN a] => Some (b2v (Qc_eqb a 0)) | _, _ => None end.
Ltac misreads e := eexists; exists CI, CU, e; do 2 eexists;
  split; [apply (reads_by _ 30); vm_compute; reflexivity|]; split; [vm_compute; reflexivity|]; split; [vm_compute; reflexivity|]; discriminate.
Declare Scope term_scope.
Notation "a / b" := (Properties_Expr.TOp ADiv a b) : term_scope.
Notation "a * b" := (Properties_Expr.TOp AMul a b) : term_scope.
Notation "a - b" := (Properties_Expr.TOp ASub a b) : term_scope.
Notation "a ^ b" := (Properties_Expr.TOp APow a b) : term_scope.
Notation "a // b" := (Properties_Expr.TOp AFloor a b) (at level 40) : term_scope.
Delimit Scope term_scope with term.
Definition TZ (z : Z) : term := TC (Z2Qc z).

(** a / (b * c) prints as a / b * c *)
Theorem C07_quotient_by_product_refuted :
  exists n, build (TI "a" / (TI "b" * TI "c"))%term = Ok n /\ misread c_table (print plain true n) n /\ misread mc_table (print plain true n) n.
Proof. eexists. split; [vm_compute; reflexivity|]. split; misreads (numenv [("a", 8%Z); ("b", 2%Z); ("c", 2%Z)]). Qed.
Print Assumptions C07_quotient_by_product_refuted.

(** replacing b by c * d in a / b does the same *)
Theorem C07_after_evaluate_refuted :
  exists n m k, build (TI "a" / TI "b")%term = Ok n /\ build (TI "c" * TI "d")%term = Ok m /\ evaluate [("b", m)] n = Ok k
    /\ misread c_table (print plain true k) k /\ misread mc_table (print plain true k) k.
Proof. do 3 eexists. split; [vm_compute; reflexivity|]. split; [vm_compute; reflexivity|]. split; [vm_compute; reflexivity|]. split; misreads (numenv [("a", 8%Z); ("c", 2%Z); ("d", 2%Z)]). Qed.
Print Assumptions C07_after_evaluate_refuted.

(** the power operator prints as ^, which C reads as exclusive or *)
Theorem C07_power_refuted : exists n, build (TI "a" ^ TZ 2)%term = Ok n /\ misread c_table (print plain true n) n.
Proof. eexists. split; [vm_compute; reflexivity|]. misreads (numenv [("a", 3%Z)]). Qed.
Print Assumptions C07_power_refuted.
(** and the negative of a power is read from an instrument file as a power of the negative *)
Theorem C07_negative_power_refuted : exists n, build (TZ 0 - TI "a" ^ TZ 2)%term = Ok n /\ misread mc_table (print plain true n) n.
Proof. eexists. split; [vm_compute; reflexivity|]. misreads (numenv [("a", 3%Z)]). Qed.
Print Assumptions C07_negative_power_refuted.

(** floor division prints as division *)
Theorem C07_floor_division_refuted : exists n, build (TI "a" // TI "b")%term = Ok n /\ misread c_table (print plain true n) n.
Proof. eexists. split; [vm_compute; reflexivity|]. misreads (numenv [("a", 7%Z); ("b", 2%Z)]). Qed.
Print Assumptions C07_floor_division_refuted.

(** abs prints as C's abs, which is a function of integers *)
Theorem C07_abs_refuted : exists n, nabs (id_ "a") = Ok n /\ misread c_table (print plain true n) n.
Proof. eexists. split; [vm_compute; reflexivity|]. misreads (fun _ : string => Some (VN (Q2Qc (1 # 2)))). Qed.
Print Assumptions C07_abs_refuted.

(** (a < b) + c prints as (a<b + c) *)
Theorem C07_sum_of_comparison_refuted :
  exists n, apply_op AAdd (NBin BLt DInt [id_ "a"] [id_ "b"]) (id_ "c") = Ok n /\ misread c_table (print plain true n) n /\ misread mc_table (print plain true n) n.
Proof. eexists. split; [vm_compute; reflexivity|]. split; misreads (numenv [("a", 1%Z); ("b", 2%Z); ("c", 5%Z)]). Qed.
Print Assumptions C07_sum_of_comparison_refuted.

Lemma unread tb s r : pinfo tb s = None -> forall n, ~ reads tb (TOp s :: r) n.
Proof. intros H n R. apply reads_at in R as ([|k] & K); [discriminate|]. rewrite e_op, H in K. discriminate. Qed.
(** 0 - (-2 * a) prints as --2 * a, which neither a C compiler nor the reader of instrument files accepts *)
Theorem C07_two_signs_refuted :
  exists n, build (TZ 0 - TZ (-2) * TI "a")%term = Ok n /\ forall n', ~ reads c_table (print plain true n) n' /\ ~ reads mc_table (print plain true n) n'.
Proof. eexists. split; [vm_compute; reflexivity|]. split; apply unread; reflexivity. Qed.
Print Assumptions C07_two_signs_refuted.
Theorem C07_two_signs_after_evaluate_refuted :
  exists n m, build (TNeg (TI "b")) = Ok n /\ evaluate [("b", cint (-1))] n = Ok m /\ forall n', ~ reads c_table (print plain true m) n' /\ ~ reads mc_table (print plain true m) n'.
Proof. do 2 eexists. split; [vm_compute; reflexivity|]. split; [vm_compute; reflexivity|]. split; apply unread; reflexivity. Qed.
Print Assumptions C07_two_signs_after_evaluate_refuted.

(** a member that shares its name with an instrument parameter is written with the prefix of the parameter *)
Theorem C07_member_named_like_parameter_refuted :
  misread c_table (print (prefixed "_instrument_var._parameters.") true (verify ["y"] (NBin BStruct DUndef [id_ "x"] [id_ "y"]))) (NBin BStruct DUndef [id_ "x"] [id_ "y"]).
Proof. misreads (numenv [("x", 1%Z)]). Qed.
Print Assumptions C07_member_named_like_parameter_refuted.

(** * C08 *)
(** what C computes for an expression of integer constants: a value of int, or nothing when it overflows or divides by zero *)
Inductive cterm := CC (z : Z) | CAdd (a b : cterm) | CSub (a b : cterm) | CMul (a b : cterm) | CDiv (a b : cterm) | CNeg (a : cterm).
Definition int_range (z : Z) : option Z := if (-2147483648 <=? z)%Z && (z <=? 2147483647)%Z then Some z else None.
Definition both (f : Z -> Z -> option Z) (x y : option Z) : option Z := match x, y with Some a, Some b => f a b | _, _ => None end.
Fixpoint c_value (t : cterm) : option Z :=
  match t with
  | CC z => int_range z
  | CAdd a b => both (fun x y => int_range (x + y)) (c_value a) (c_value b)
  | CSub a b => both (fun x y => int_range (x - y)) (c_value a) (c_value b)
  | CMul a b => both (fun x y => int_range (x * y)) (c_value a) (c_value b)
  | CDiv a b => both (fun x y => if (y =? 0)%Z then None else int_range (Z.quot x y)) (c_value a) (c_value b)
  | CNeg a => match c_value a with Some x => int_range (- x) | None => None end
  end.
(** every division in the term leaves no remainder *)
Fixpoint divides_exactly (t : cterm) : Prop :=
  match t with
  | CC _ => True
  | CAdd a b | CSub a b | CMul a b => divides_exactly a /\ divides_exactly b
  | CDiv a b => divides_exactly a /\ divides_exactly b /\ forall x y, c_value a = Some x -> c_value b = Some y -> Z.rem x y = 0%Z
  | CNeg a => divides_exactly a
  end.
(** the same expression written with the Python operators *)
Fixpoint in_python (t : cterm) : term :=
  match t with
  | CC z => TC (Z2Qc z)
  | CAdd a b => Properties_Expr.TOp AAdd (in_python a) (in_python b)
  | CSub a b => Properties_Expr.TOp ASub (in_python a) (in_python b)
  | CMul a b => Properties_Expr.TOp AMul (in_python a) (in_python b)
  | CDiv a b => Properties_Expr.TOp ADiv (in_python a) (in_python b)
  | CNeg a => TNeg (in_python a)
  end.
Definition literal (n : node) (q : Qc) : Prop := exists d, (d = DInt \/ d = DFloat) /\ n = NVal (PNum q) d OValue.
Lemma value_fold rec o d e x y z : (forall u v, rec o (NRaw u) (NRaw v) = rbind (raw_op o u v) (fun r => Ok (NRaw r))) ->
  (d = DInt \/ d = DFloat) -> (e = DInt \/ e = DFloat) -> ordinary o x y = Some z ->
  exists r q, value_op rec o (NVal (PNum x) d OValue) (NVal (PNum y) e OValue) = Ok r /\ literal r q.
Proof.
  intros Hrec Hd He Hz.
  destruct o; cbn [ordinary] in Hz; try discriminate; [| | |destruct (Qc_eq_dec y 0) as [|Ny]; [discriminate|]];
    destruct Hd as [-> | ->], He as [-> | ->];
    cbn [value_op value_addsub value_mul value_div is_zero is_value eq_num rbind dt_of dt_add dt_div is_id ot_is_id is_op orb is_strt dtype_eqb neg as_type
         fold_const held hold mk_value];
    repeat match goal with |- context [Qc_eqb ?u ?v] => destruct (Qc_eqb u v) eqn:? end; cbn [rbind neg as_type ot_is_id is_strt dtype_eqb orb hold mk_value bop_of]; try rewrite Hrec; cbn [raw_op rbind hold mk_value];
    try match goal with |- context [Qc_eqb ?u ?v] => destruct (Qc_eqb u v) eqn:? end.
  all: try (do 2 eexists; split; [reflexivity|]; eexists; split; [|reflexivity]; auto; fail).
  all: try (exfalso; apply Ny; now apply Qc_eqb_eq).
  all: cbn; repeat match goal with |- context [Qc_eqb ?u ?v] => destruct (Qc_eqb u v) eqn:? end; try rewrite Hrec; cbn [raw_op rbind hold mk_value].
  all: try (do 2 eexists; split; [reflexivity|]; eexists; split; [|reflexivity]; auto; fail).
Qed.
Lemma py_op_val f o p d t b : py_op (S f) o (NVal p d t) b = value_op (py_op f) o (NVal p d t) (coerce b).
Proof. reflexivity. Qed.
Lemma py_op_raw f o x y : py_op (S f) o (NRaw x) (NRaw y) = rbind (raw_op o x y) (fun r => Ok (NRaw r)).
Proof. reflexivity. Qed.
Lemma fold_literals o a b x y z : literal a x -> literal b y -> ordinary o x y = Some z -> exists r, apply_op o a b = Ok r /\ literal r z.
Proof.
  intros (d & Hd & ->) (e & He & ->) Hz.
  destruct (value_fold (py_op 11) o d e x y z) as (r & q & E & L); [intros; apply py_op_raw|assumption..|].
  assert (A : apply_op o (NVal (PNum x) d OValue) (NVal (PNum y) e OValue) = Ok r).
  { unfold apply_op. change (4 * (size (NVal (PNum x) d OValue) + size (NVal (PNum y) e OValue)) + 4) with 12. rewrite py_op_val. exact E. }
  exists r. split; [exact A|].
  assert (N : num noIB noIU (fun _ => None) r z).
  { eapply C01_operators_preserve_value; [| |exact Hz|exact A]; reflexivity. }
  destruct L as (f & Hf & ->). injection N as ->. exists f. auto.
Qed.
Lemma neg_literal a x : literal a x -> exists r, neg a = Ok r /\ literal r (- x).
Proof. intros (d & [-> | ->] & ->); eexists; (split; [reflexivity|]); eexists; (split; [|reflexivity]); auto. Qed.
Lemma best_literal q : literal (best_num q) q.
Proof. unfold best_num, literal. destruct (Qc_is_int q); eexists; (split; [|reflexivity]); auto. Qed.

Lemma Z2Qc_add a b : (Z2Qc a + Z2Qc b)%Qc = Z2Qc (a + b).
Proof. unfold Z2Qc. apply Qc_is_canon. cbn [this Q2Qc Qcplus]. rewrite !Qred_correct. now rewrite inject_Z_plus. Qed.
Lemma Z2Qc_sub a b : (Z2Qc a - Z2Qc b)%Qc = Z2Qc (a - b).
Proof. unfold Z2Qc. apply Qc_is_canon. unfold Qcminus, Qcplus, Qcopp. cbn [this Q2Qc]. rewrite !Qred_correct. unfold Z.sub. now rewrite inject_Z_plus, inject_Z_opp. Qed.
Lemma Z2Qc_mul a b : (Z2Qc a * Z2Qc b)%Qc = Z2Qc (a * b).
Proof. unfold Z2Qc. apply Qc_is_canon. cbn [this Q2Qc Qcmult]. rewrite !Qred_correct. now rewrite inject_Z_mult. Qed.
Lemma Z2Qc_opp a : (- Z2Qc a)%Qc = Z2Qc (- a).
Proof. unfold Z2Qc. apply Qc_is_canon. cbn [this Q2Qc Qcopp]. rewrite !Qred_correct. now rewrite inject_Z_opp. Qed.
Lemma Z2Qc_inj a b : Z2Qc a = Z2Qc b -> a = b.
Proof.
  intro H. apply (f_equal this) in H. unfold Z2Qc, Q2Qc in H. cbn [this] in H. pose proof (Qred_correct (inject_Z a)) as A. pose proof (Qred_correct (inject_Z b)) as B.
  rewrite H in A. assert (X : inject_Z a == inject_Z b) by (rewrite <- A; exact B). unfold Qeq in X. cbn in X. lia.
Qed.
Lemma Z2Qc_0 : Z2Qc 0 = 0%Qc. Proof. now apply Qc_is_canon. Qed.
Lemma Z2Qc_div a b : b <> 0%Z -> Z.rem a b = 0%Z -> (Z2Qc a / Z2Qc b)%Qc = Z2Qc (Z.quot a b).
Proof.
  intros N R. assert (E : (a = b * Z.quot a b)%Z) by (pose proof (Z.quot_rem' a b); lia). rewrite E at 1. rewrite <- Z2Qc_mul.
  assert (Nb : Z2Qc b <> 0%Qc) by (rewrite <- Z2Qc_0; intro X; apply Z2Qc_inj in X; contradiction).
  field. exact Nb.
Qed.
Lemma int_range_some z w : int_range z = Some w -> w = z.
Proof. unfold int_range. destruct (_ && _); congruence. Qed.

(** An expression of integer constants folds to a constant, and to the value C gives the unfolded expression, provided no step of
    C's evaluation overflows and every division is exact.  The full statement has no such proviso and is false, see below. *)
Theorem C08_folding_agrees_partial : forall t z, divides_exactly t -> c_value t = Some z ->
  exists n, build (in_python t) = Ok n /\ literal n (Z2Qc z).
Proof.
  induction t as [c|a IHa b IHb|a IHa b IHb|a IHa b IHb|a IHa b IHb|a IHa]; intros z D V; cbn [c_value divides_exactly in_python build] in *.
  - apply int_range_some in V as ->. eexists. split; [reflexivity|]. apply best_literal.
  - destruct D as [Da Db]. destruct (c_value a) as [x|]; [|discriminate]. destruct (c_value b) as [y|]; [|discriminate]. cbn [both] in V. apply int_range_some in V as ->.
    destruct (IHa x Da eq_refl) as (na & -> & La). destruct (IHb y Db eq_refl) as (nb & -> & Lb). cbn [rbind]. apply (fold_literals _ _ _ _ _ _ La Lb). cbn. now rewrite Z2Qc_add.
  - destruct D as [Da Db]. destruct (c_value a) as [x|]; [|discriminate]. destruct (c_value b) as [y|]; [|discriminate]. cbn [both] in V. apply int_range_some in V as ->.
    destruct (IHa x Da eq_refl) as (na & -> & La). destruct (IHb y Db eq_refl) as (nb & -> & Lb). cbn [rbind]. apply (fold_literals _ _ _ _ _ _ La Lb). cbn. now rewrite Z2Qc_sub.
  - destruct D as [Da Db]. destruct (c_value a) as [x|]; [|discriminate]. destruct (c_value b) as [y|]; [|discriminate]. cbn [both] in V. apply int_range_some in V as ->.
    destruct (IHa x Da eq_refl) as (na & -> & La). destruct (IHb y Db eq_refl) as (nb & -> & Lb). cbn [rbind]. apply (fold_literals _ _ _ _ _ _ La Lb). cbn. now rewrite Z2Qc_mul.
  - destruct D as (Da & Db & Dx). destruct (c_value a) as [x|]; [|discriminate]. destruct (c_value b) as [y|]; [|discriminate]. cbn [both] in V.
    destruct (Z.eqb_spec y 0) as [|Ny]; [discriminate|]. apply int_range_some in V as ->. specialize (Dx x y eq_refl eq_refl).
    destruct (IHa x Da eq_refl) as (na & -> & La). destruct (IHb y Db eq_refl) as (nb & -> & Lb). cbn [rbind]. apply (fold_literals _ _ _ _ _ _ La Lb). cbn [ordinary].
    destruct (Qc_eq_dec (Z2Qc y) 0) as [E|_]; [exfalso; apply Ny; rewrite <- Z2Qc_0 in E; now apply Z2Qc_inj in E|]. now rewrite Z2Qc_div.
  - destruct (c_value a) as [x|]; [|discriminate]. apply int_range_some in V as ->. destruct (IHa x D eq_refl) as (na & -> & La). cbn [rbind]. rewrite <- Z2Qc_opp. now apply neg_literal.
Qed.
Print Assumptions C08_folding_agrees_partial.
Example C08_example : divides_exactly (CDiv (CMul (CC 6) (CSub (CC 2) (CC 7))) (CNeg (CC 3)))
  /\ c_value (CDiv (CMul (CC 6) (CSub (CC 2) (CC 7))) (CNeg (CC 3))) = Some 10%Z.
Proof. split; [|reflexivity]. cbn. repeat split. intros x y [= <-] [= <-]. reflexivity. Qed.

(** Every division of two constants that is not exact folds to another value than C's. *)
Theorem C08_division_refuted : forall x y z, y <> 0%Z -> Z.rem x y <> 0%Z -> c_value (CDiv (CC x) (CC y)) = Some z ->
  exists n q, build (in_python (CDiv (CC x) (CC y))) = Ok n /\ literal n q /\ q <> Z2Qc z.
Proof.
  intros x y z Ny R V. cbn [c_value] in V.
  destruct (int_range x) as [x'|] eqn:Ex; [|discriminate]. apply int_range_some in Ex as ->. destruct (int_range y) as [y'|] eqn:Ey; [|discriminate]. apply int_range_some in Ey as ->. cbn [both] in V.
  destruct (Z.eqb_spec y 0) as [|_]; [contradiction|]. apply int_range_some in V as ->.
  assert (Nq : Z2Qc y <> 0%Qc) by (rewrite <- Z2Qc_0; intro X; apply Z2Qc_inj in X; contradiction).
  destruct (fold_literals ADiv _ _ _ _ (Z2Qc x / Z2Qc y)%Qc (best_literal (Z2Qc x)) (best_literal (Z2Qc y))) as (n & E & L).
  { cbn [ordinary]. destruct (Qc_eq_dec (Z2Qc y) 0); [contradiction|reflexivity]. }
  exists n, (Z2Qc x / Z2Qc y)%Qc. split; [exact E|]. split; [exact L|]. intro X. apply R.
  assert (Y : Z2Qc x = (Z2Qc y * Z2Qc (Z.quot x y))%Qc) by (rewrite <- X; field; exact Nq). rewrite Z2Qc_mul in Y. apply Z2Qc_inj in Y.
  pose proof (Z.quot_rem' x y). lia.
Qed.
Print Assumptions C08_division_refuted.
Example C08_division_example : Z.rem 1 2 <> 0%Z /\ c_value (CDiv (CC 1) (CC 2)) = Some 0%Z.
Proof. split; [discriminate|reflexivity]. Qed.

(** Floor division folds towards minus infinity, while its printed text is a C division and goes towards zero. *)
Theorem C08_floor_division_refuted :
  build (TZ (-7) // TZ 2)%term = Ok (cint (-4)) /\ print plain true (NBin BFloor DInt [cint (-7)] [cint 2]) = [TOp "-"; TNum (Z2Qc 7); TOp "/"; TNum (Z2Qc 2)]
  /\ c_value (CDiv (CNeg (CC 7)) (CC 2)) = Some (-3)%Z.
Proof. repeat split; vm_compute; reflexivity. Qed.
Print Assumptions C08_floor_division_refuted.

(** round of a constant gives the nearest integer, and of the two nearest the even one *)
Theorem C08_round_of_constant : forall q d, d = DInt \/ d = DFloat ->
  exists n z, nround (NVal (PNum q) d OValue) = Ok n /\ literal n (Z2Qc z)
    /\ (Qabs.Qabs (inject_Z z - this q) <= 1 # 2)%Q /\ ((Qabs.Qabs (inject_Z z - this q) == 1 # 2)%Q -> Z.even z = true).
Proof.
  intros q d Hd. exists (NVal (PNum (Qc_round q)) d OValue), (Qround_even (this q)).
  split; [destruct Hd as [-> | ->]; reflexivity|]. split; [exists d; auto|].
  unfold Qround_even. set (x := this q). pose proof (Qfloor_le x) as A. pose proof (Qlt_floor x) as B. rewrite inject_Z_plus in B. change (inject_Z 1) with 1%Q in B.
  destruct (Qcompare_spec (x - inject_Z (Qfloor x)) (1 # 2)) as [E|E|E].
  - destruct (Z.even (Qfloor x)) eqn:V.
    + split; [|intros _; exact V]. apply Qabs.Qabs_Qle_condition. split; lra.
    + split; [rewrite inject_Z_plus; change (inject_Z 1) with 1%Q; apply Qabs.Qabs_Qle_condition; split; lra|]. intros _. rewrite Z.even_add, V. reflexivity.
  - split; [apply Qabs.Qabs_Qle_condition; split; lra|]. rewrite Qabs.Qabs_neg by lra. intro X. exfalso. lra.
  - rewrite inject_Z_plus. change (inject_Z 1) with 1%Q. split; [apply Qabs.Qabs_Qle_condition; split; lra|]. rewrite Qabs.Qabs_pos by lra. intro X. exfalso. lra.
Qed.
Print Assumptions C08_round_of_constant.
(** C's round, to which an unfolded round is printed, takes the one further from zero (ISO C 7.12.9.6) *)
Definition c_round (q : Q) : Z := if (Qnum q <? 0)%Z then (- Qfloor (- q + (1 # 2)))%Z else Qfloor (q + (1 # 2)).
Theorem C08_round_refuted : exists q n, nround (cflt q) = Ok n /\ literal n (Z2Qc 2) /\ c_round (this q) = 3%Z.
Proof. exists (Q2Qc (5 # 2)). eexists. split; [reflexivity|]. split; [|reflexivity]. exists DFloat. split; [now right|]. reflexivity. Qed.
Print Assumptions C08_round_refuted.

(** * C09: equal expressions as dictionary keys *)
(** What hash is computed from: str() of Value (727-728) and Expr (1037-1038), in which identifiers and strings are spelt alike.
    The operations define __eq__ and not __hash__ (334, 458, 586), which in Python leaves them without a hash: they raise.
    Characters are compared, so signs are kept apart here. *)
Definition spell (t : tok) : tok := match t with TId s => TStr s | _ => t end.
Definition text (n : node) : list tok := map spell (print plain false n).
Definition hash_key (o : obj) : option (list tok) :=
  match o with
  | OE l => Some (map spell (joined (map (print plain false) l)))
  | ON n => if is_op n then None else Some (text n)
  end.
(** trees without + and *, the operators whose operands may change places *)
Fixpoint ordered (n : node) : bool :=
  match n with
  | NRaw _ | NBox _ _ | NExpr _ => false
  | NVal _ _ _ => true
  | NUn _ _ a => forallb ordered a
  | NBin op _ l r => match op with BAdd | BMul => false | _ => forallb ordered l && forallb ordered r end
  | NTri _ f s t => forallb ordered f && forallb ordered s && forallb ordered t
  end.
Lemma map_spell_joined l : map spell (joined l) = joined (map (map spell) l).
Proof. induction l as [|x [|y t] IH]; [reflexivity..|]. cbn [joined map] in *. rewrite map_app. cbn [map spell]. now rewrite IH. Qed.
Lemma text_list l l' : Forall (fun a => forall b, ordered a = true -> node_eq a b = true -> text a = text b) l -> forallb ordered l = true -> all2 node_eq l l' = true ->
  map spell (joined (map (print plain false) l)) = map spell (joined (map (print plain false) l')).
Proof.
  intros F O E. rewrite !map_spell_joined, !map_map. f_equal. revert l' O E. induction F as [|x t Hx Ht IH]; intros [|y t'] O E; try discriminate; [reflexivity|].
  cbn in O, E. apply andb_prop in O as [O1 O2]. apply andb_prop in E as [E1 E2]. cbn [map]. f_equal; [now apply Hx|now apply IH].
Qed.
Lemma text_eq a : forall b, ordered a = true -> node_eq a b = true -> text a = text b.
Proof.
  induction a using node_ind'; intros b O E; cbn [ordered] in O; try discriminate.
  - destruct b; try discriminate. cbn [node_eq] in E. apply payload_eqb_eq in E as ->. unfold text. destruct p0 as [q|s]; [reflexivity|]. cbn [print].
    unfold plain. destruct o, o0; reflexivity.
  - destruct b; try discriminate. cbn [node_eq] in E. apply andb_prop in E as [E1 E2]. apply unop_eqb_eq in E1 as ->. pose proof (text_list _ _ H O E2) as X.
    unfold text. cbn [print]. destruct op0; cbn [map spell sign negb]; rewrite ?map_app, ?X; reflexivity.
  - destruct b; try discriminate. cbn [node_eq] in E. apply andb_prop in E as [E1 E2]. apply binop_eqb_eq in E1 as <-.
    assert (P : forallb ordered l && forallb ordered r = true /\ all2 node_eq l l0 && all2 node_eq r r0 = true) by (destruct op; try discriminate; split; assumption).
    destruct P as [O' E']. apply andb_prop in O' as [O1 O2]. apply andb_prop in E' as [E1 E3]. pose proof (text_list _ _ H O1 E1) as X. pose proof (text_list _ _ H0 O2 E3) as Y.
    unfold text. cbn [print]. destruct op; rewrite ?map_app; cbn [map spell]; rewrite ?map_app; cbn [map spell]; rewrite ?map_app, ?X, ?Y; reflexivity.
  - destruct b; try discriminate. cbn [node_eq] in E. apply andb_prop in E as [E E3]. apply andb_prop in E as [E1 E2]. apply andb_prop in O as [O O3]. apply andb_prop in O as [O1 O2].
    pose proof (text_list _ _ H O1 E1) as X. pose proof (text_list _ _ H0 O2 E2) as Y. pose proof (text_list _ _ H1 O3 E3) as Z.
    unfold text. cbn [print]. rewrite ?map_app; cbn [map spell]; rewrite ?map_app; cbn [map spell]; rewrite ?X, ?Y, ?Z; reflexivity.
Qed.

(** Two expressions that compare equal have equal hashes when neither a sum nor a product occurs in the first.  Missing from the
    full statement: sums and products, and bare operations, both refuted below. *)
Theorem C09_equal_expressions_hash_alike_partial : forall l l', forallb ordered l = true -> obj_eq (OE l') (OE l) = true ->
  exists k, hash_key (OE l) = Some k /\ hash_key (OE l') = Some k.
Proof.
  intros l l' O E. assert (E' : all2 node_eq l l' = true) by (destruct l' as [|x [|y t]]; exact E). eexists. split; [reflexivity|]. cbn [hash_key]. f_equal. symmetry. apply (text_list l l'); [|exact O|exact E'].
  apply Forall_forall. intros x _ b. apply text_eq.
Qed.
Print Assumptions C09_equal_expressions_hash_alike_partial.
Example C09_hash_example : let l := [NBin BSub DUndef [id_ "a"] [NUn UNeg DUndef [cint 2]]] in let l' := [NBin BSub DInt [id_ "a"] [NUn UNeg DUndef [cflt (Z2Qc 2)]]] in
  forallb ordered l = true /\ obj_eq (OE l') (OE l) = true.
Proof. split; reflexivity. Qed.
(** bare values *)
Theorem C09_equal_values_hash_alike : forall p d o p' d' o', obj_eq (ON (NVal p d o)) (ON (NVal p' d' o')) = true ->
  hash_key (ON (NVal p d o)) = hash_key (ON (NVal p' d' o')) /\ hash_key (ON (NVal p d o)) <> None.
Proof. intros p d o p' d' o' E. split; [|discriminate]. cbn [hash_key is_op]. f_equal. now apply text_eq. Qed.
Print Assumptions C09_equal_values_hash_alike.

Theorem C09_equal_sums_hash_differently_refuted :
  exists a b, obj_eq (OE [a]) (OE [b]) = true /\ hash_key (OE [a]) <> hash_key (OE [b]).
Proof. exists (NBin BAdd DUndef [id_ "a"] [id_ "b"]), (NBin BAdd DUndef [id_ "b"] [id_ "a"]). split; [reflexivity|discriminate]. Qed.
Print Assumptions C09_equal_sums_hash_differently_refuted.
Theorem C09_operations_have_no_hash_refuted :
  exists n, build (TI "a" - TI "b")%term = Ok n /\ obj_eq (ON n) (ON n) = true /\ hash_key (ON n) = None.
Proof. eexists. split; [vm_compute; reflexivity|]. split; reflexivity. Qed.
Print Assumptions C09_operations_have_no_hash_refuted.

(** * C53: expressions in instrument files mean what they mean in C *)
(** operators on which the grammar of instrument files and C agree *)
Definition shared (s : string) : Prop := In s ["+"; "-"; "*"; "/"; ">>"; "<"; "&&"].
Definition shared_tok (t : tok) : Prop := match t with TOp s => shared s | TQ => False | _ => True end.
(** corresponding levels of the two tables *)
Inductive alike : nat -> nat -> Prop :=
  | al0 : alike 0 0 | al1 : alike 17 14 | al2 : alike 16 13 | al3 : alike 18 14 | al4 : alike 14 12 | al5 : alike 8 11 | al6 : alike 5 6.
(** Any text with only these operators, with any brackets, calls, members and items, is read by both readers as the same tree (or by
    neither).  Missing from the full statement: the other operators, see the refutations. *)
Theorem C53_same_reading_partial : forall ts n, Forall shared_tok ts -> (reads mc_table ts n <-> reads c_table ts n).
Proof.
  intros ts n W.
  assert (A : forall f, pexpr mc_table f 0 ts = pexpr c_table f 0 ts).
  { intro f. destruct (agree mc_table c_table shared alike) with (f := f) as (H & _).
    - constructor.
    - intros s Hs. unfold shared in Hs. cbn [In] in Hs.
      repeat (destruct Hs as [Hs | Hs]; [subst s; cbv [mc_table c_table binfo look find option_map fst snd String.eqb Ascii.eqb Bool.eqb];
         split; [reflexivity|]; split; [constructor|]; intros m m' R; destruct R; lia|]). destruct Hs.
    - intros s Hs. unfold shared in Hs. cbn [In] in Hs.
      repeat (destruct Hs as [Hs | Hs]; [subst s; cbv [mc_table c_table pinfo look find option_map fst snd String.eqb Ascii.eqb Bool.eqb];
         first [exact I | split; [reflexivity|constructor]]|]). destruct Hs.
    - apply (H 0 0 ts); [constructor|]. eapply Forall_impl; [|exact W]. intros [] X; exact X. }
  unfold reads. split; intros (k & K); exists k; intros f Hf; [rewrite <- A|rewrite A]; now apply K.
Qed.
Print Assumptions C53_same_reading_partial.
Example C53_example : Forall shared_tok [TOp "-"; TId "a"; TOp "*"; TId "f"; TL; TId "b"; TOp "+"; TNum (Z2Qc 1); TComma; TId "c"; TLB; TId "i"; TRB; TR; TOp "<"; TId "d"; TOp "&&"; TId "e"]
  /\ exists n, reads c_table [TOp "-"; TId "a"; TOp "*"; TId "f"; TL; TId "b"; TOp "+"; TNum (Z2Qc 1); TComma; TId "c"; TLB; TId "i"; TRB; TR; TOp "<"; TId "d"; TOp "&&"; TId "e"] n.
Proof.
  split; [repeat constructor; cbn; tauto|]. eexists. apply (reads_by _ 30). vm_compute. reflexivity.
Qed.

(** the two readings of a text have different values *)
Definition differ (ts : list tok) (env : string -> option val) : Prop :=
  exists n n' v v', reads mc_table ts n /\ reads c_table ts n' /\ den CI CU env false n = Some v /\ den CI CU env false n' = Some v' /\ v <> v'.
Ltac differs := do 4 eexists; split; [apply (reads_by _ 30); vm_compute; reflexivity|]; split; [apply (reads_by _ 30); vm_compute; reflexivity|];
  split; [vm_compute; reflexivity|]; split; [vm_compute; reflexivity|]; discriminate.
(** a % b + c is a % (b + c) in an instrument file *)
Theorem C53_modulo_refuted : differ [TId "a"; TOp "%"; TId "b"; TOp "+"; TId "c"] (numenv [("a", 7%Z); ("b", 3%Z); ("c", 2%Z)]).
Proof. differs. Qed.
Print Assumptions C53_modulo_refuted.
(** a || b && c is (a || b) && c *)
Theorem C53_or_and_refuted : differ [TId "a"; TOp "||"; TId "b"; TOp "&&"; TId "c"] (numenv [("a", 1%Z); ("b", 0%Z); ("c", 0%Z)]).
Proof. differs. Qed.
Print Assumptions C53_or_and_refuted.
(** !a == b is !(a == b) *)
Theorem C53_not_refuted : differ [TOp "!"; TId "a"; TOp "=="; TId "b"] (numenv [("a", 2%Z); ("b", 1%Z)]).
Proof. differs. Qed.
Print Assumptions C53_not_refuted.
(** a < b == c < d is a < (b == c) < d *)
Theorem C53_comparisons_refuted : differ [TId "a"; TOp "<"; TId "b"; TOp "=="; TId "c"; TOp "<"; TId "d"] (numenv [("a", 2%Z); ("b", 1%Z); ("c", 1%Z); ("d", 2%Z)]).
Proof. differs. Qed.
Print Assumptions C53_comparisons_refuted.
(** a << b >> c is a << (b >> c) *)
Theorem C53_shifts_refuted : differ [TId "a"; TOp "<<"; TId "b"; TOp ">>"; TId "c"] (numenv [("a", 1%Z); ("b", 4%Z); ("c", 1%Z)]).
Proof. differs. Qed.
Print Assumptions C53_shifts_refuted.
(** a ? b : c ? d : e is (a ? b : c) ? d : e *)
Theorem C53_conditional_refuted : differ [TId "a"; TQ; TId "b"; TColon; TId "c"; TQ; TId "d"; TColon; TId "e"] (numenv [("a", 1%Z); ("b", 2%Z); ("c", 0%Z); ("d", 3%Z); ("e", 4%Z)]).
Proof. differs. Qed.
Print Assumptions C53_conditional_refuted.
