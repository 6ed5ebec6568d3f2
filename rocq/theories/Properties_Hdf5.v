(** C47: saving and loading keeps an instrument. *)
From Coq Require Import List String Ascii Bool Arith ZArith Lia Permutation.
From Verif Require Import PyStr Expr Hdf5 Hdf5Facts.
Import ListNotations.
Local Open Scope string_scope.
Local Open Scope list_scope.
Local Open Scope nat_scope.

(** * The fields of the classes, from the class declarations
    common/parameters.py:7-10, 52-54; common/metadata.py:5-32, 36-40; common/block.py:5-9; reader/registry.py:116-122, 220-224, 271, 280-284;
    comp/comp.py:14-33; instr/orientation.py:13-22, 90-93, 136-139, 160-178, 228-240, 434-436, 561-563, 606-609, 721-723, 873-876;
    instr/jump.py:6-11; common/expression.py:295-302, 384-396, 538-545, 639-649, 1024-1025 *)
(** a scalar or an object, either possibly None, or a field that must have one value *)
Inductive kind (F : Type) := Sc (none_ok : bool) | Ob (none_ok : bool) | Fix (v : obj F).
Arguments Sc {F}. Arguments Ob {F}. Arguments Fix {F}.

Section Spec.
Variable F : Type.
Variable ver : string.
Variables f0 f1 : F.
Variable build : string -> list (string * obj F) -> res bool.
Definition tuples (l : list string) : list (string * kind F) := map (fun n => (n, Ob false)) l.
Definition op_kinds : list (string * kind F) := [("op", Sc false); ("style", Sc false); ("data_type", Sc false)].
Definition rotation_kinds : list (string * kind F) := [("v", Ob false); ("degrees", Fix (OScal (SBool true)))].
Definition nine : list string := ["xx"; "xy"; "xz"; "yx"; "yy"; "yz"; "zx"; "zy"; "zz"].
Definition classes : list (string * list (string * kind F)) := [
  ("InstrumentParameter", [("name", Sc false); ("unit", Sc true); ("value", Ob false)]);
  ("ComponentParameter", [("name", Sc false); ("value", Ob false)]);
  ("MetaData", [("name", Sc true); ("mimetype", Sc true); ("value", Sc true); ("source", Ob false)]);
  ("DataSource", [("name", Sc true); ("type_name", Sc false)]);
  ("RawC", [("filename", Sc true); ("line", Sc true); ("translated", Ob true); ("source", Ob false)]);
  ("ModuleRemoteRegistry", [("name", Sc true); ("url", Sc true); ("version", Sc true); ("filename", Sc true); ("priority", Fix (OScal (SInt 0)))]);
  ("GitHubRegistry", [("name", Sc true); ("url", Sc true); ("version", Sc true); ("filename", Sc true); ("registry", Sc true); ("priority", Fix (OScal (SInt 0)))]);
  ("LocalRegistry", [("name", Sc true); ("root", Sc true); ("priority", Fix (OScal (SInt 10)))]);
  ("Comp", [("name", Sc true); ("category", Sc true); ("dependency", Sc true); ("acc", Sc true)] ++
     tuples ["define"; "setting"; "output"; "metadata"; "share"; "user"; "declare"; "initialize"; "trace"; "save"; "final"; "display"]);
  ("Orient", [("_degrees", Sc false); ("_position", Ob false); ("_rotation", Ob false)]);
  ("Parts", [("_stack", Ob false)]); ("Part", [("_axes", Ob false)]);
  ("TranslationPart", [("v", Ob false)]); ("RotationX", rotation_kinds); ("RotationY", rotation_kinds); ("RotationZ", rotation_kinds);
  ("Vector", tuples ["x"; "y"; "z"]); ("Angles", tuples ["x"; "y"; "z"]); ("Matrix", tuples nine); ("Rotation", tuples nine);
  ("Seitz", tuples ["xx"; "xy"; "xz"; "xt"; "yx"; "yy"; "yz"; "yt"; "zx"; "zy"; "zz"; "zt"]);
  ("Jump", [("target", Sc true); ("relative_target", Sc true); ("iterate", Sc true); ("absolute_target", Sc true); ("condition", Ob false)]);
  ("Value", [("object_type", Sc false); ("data_type", Sc false); ("shape_type", Sc false); ("value", Ob true)]);
  ("Expr", [("expr", Ob false)]);
  ("UnaryOp", op_kinds ++ [("value", Ob false)]); ("BinaryOp", op_kinds ++ [("left", Ob false); ("right", Ob false)]);
  ("TrinaryOp", op_kinds ++ [("first", Ob false); ("second", Ob false); ("third", Ob false)]) ].
Definition inst_kinds : list (string * kind F) :=
  [("name", Sc false); ("removable", Sc false); ("cpu", Sc false); ("group", Sc true); ("orientation", Ob false); ("parameters", Ob false); ("split", Ob true); ("when", Ob true);
   ("extend", Ob false); ("jump", Ob false); ("metadata", Ob false); ("mode", Fix (OScal (SStr "normal")))].
Definition instr_kinds : list (string * kind F) :=
  [("name", Sc true); ("source", Sc true)] ++ tuples ["parameters"; "metadata"; "included"; "user"; "declare"; "initialize"; "save"; "final"; "flags"; "registries"].
Definition group_kinds : list (string * kind F) := [("name", Sc false); ("index", Sc false); ("ids", Ob false)].

(** texts without NUL, integers that fit into 64 bits *)
Definition fits_h5 (s : scalar F) : Prop := match s with SStr t => has_char "000" t = false | SInt z => (- 2 ^ 63 <= z < 2 ^ 64)%Z | _ => True end.

(** the data type of an expression must be that of its parts *)
Definition type_word (d : dtype) : string := match d with DFloat => "float" | DInt => "int" | DStr => "str" | DUndef => "undefined" end.
Inductive has_type : obj F -> dtype -> Prop :=
| ht cls fs d : In cls ["Value"; "UnaryOp"; "BinaryOp"; "TrinaryOp"] -> get "data_type" fs = Some (OScal (SStr (type_word d))) -> has_type (ORec cls fs) d.
Definition all_type (l : list (obj F)) (d : dtype) : Prop := l <> [] /\ forall x, In x l -> has_type x d.
Inductive op_typed : string -> list (string * obj F) -> dtype -> Prop :=
| ot_unary fs l d : get "value" fs = Some (OList l) -> all_type l d -> op_typed "UnaryOp" fs d
| ot_access fs op l r : get "op" fs = Some (OScal (SStr op)) -> In op ["__call__"; "__struct_access__"; "__pointer_access__"; "__getitem__"] ->
    get "left" fs = Some (OList l) -> get "right" fs = Some (OList r) -> op_typed "BinaryOp" fs DUndef
| ot_binary fs op l r a b : get "op" fs = Some (OScal (SStr op)) -> ~ In op ["__call__"; "__struct_access__"; "__pointer_access__"; "__getitem__"] ->
    get "left" fs = Some (OList l) -> get "right" fs = Some (OList r) -> all_type l a -> all_type r b -> op_typed "BinaryOp" fs (dt_add a b)
| ot_trinary fs f l r a b : get "first" fs = Some (OList f) -> get "second" fs = Some (OList l) -> get "third" fs = Some (OList r) -> all_type l a -> all_type r b -> op_typed "TrinaryOp" fs (dt_add a b).
(** what else the constructors ask for *)
Definition sound (cls : string) (fs : list (string * obj F)) : Prop :=
  (In cls ["UnaryOp"; "BinaryOp"; "TrinaryOp"] -> exists d, op_typed cls fs d /\ get "data_type" fs = Some (OScal (SStr (type_word d)))) /\
  (cls = "Value" -> (exists o, get "object_type" fs = Some (OScal (SStr o)) /\ In o ["value"; "initializer_list"; "identifier"; "function"; "parameter"]) /\
     (exists d, get "data_type" fs = Some (OScal (SStr (type_word d)))) /\ exists s, get "shape_type" fs = Some (OScal (SStr s)) /\ In s ["unknown"; "scalar"; "vector"]) /\
  (cls = "DataSource" -> exists t, get "type_name" fs = Some (OScal (SStr t)) /\ In t ["Component"; "Instance"; "Instrument"]) /\
  (In cls ["ModuleRemoteRegistry"; "GitHubRegistry"; "LocalRegistry"] -> build cls fs = Ok true).

(** objects that can be kept; every object made by the classes has its fields in this order *)
Inductive wf : obj F -> Prop :=
| wf_scal s : fits_h5 s -> wf (OScal s)
| wf_list l : (forall x, In x l -> wf x) -> wf (OList l)
| wf_tup l : (forall x, In x l -> wf x) -> wf (OTup l)
| wf_rec cls kinds fs : In (cls, kinds) classes -> map fst fs = map fst kinds ->
    (forall n b v, In (n, Sc b) kinds -> get n fs = Some v -> v = ONone /\ b = true \/ exists s, v = OScal s /\ fits_h5 s) ->
    (forall n b v, In (n, Ob b) kinds -> get n fs = Some v -> v <> ONone -> wf v) ->
    (forall n, In (n, Ob false) kinds -> get n fs <> Some ONone) ->
    (forall n v, In (n, Fix v) kinds -> get n fs = Some v) ->
    sound cls fs -> wf (ORec cls fs).
Definition wf_fields (kinds : list (string * kind F)) (fs : list (string * obj F)) : Prop :=
  map fst fs = map fst kinds /\
  (forall n b v, In (n, Sc b) kinds -> get n fs = Some v -> v = ONone /\ b = true \/ exists s, v = OScal s /\ fits_h5 s) /\
  (forall n b v, In (n, Ob b) kinds -> get n fs = Some v -> v <> ONone -> wf v) /\
  (forall n, In (n, Ob false) kinds -> get n fs <> Some ONone) /\ (forall n v, In (n, Fix v) kinds -> get n fs = Some v).

(** references go to instances of the instrument: backwards for placement (C19), anywhere for groups *)
Definition named (l : list (inst F)) (r : ref) : Prop := exists x, nth_error l (fst r) = Some x /\ get "name" (i_fs x) = Some (OScal (SStr (snd r))).
Record wf_inst (l : list (inst F)) (i : nat) (x : inst F) : Prop := {
  wi_fields : wf_fields inst_kinds (i_fs x);
  wi_name : exists n, get "name" (i_fs x) = Some (OScal (SStr n));
  wi_type : wf (i_type x) /\ exists fs n, i_type x = ORec "Comp" fs /\ get "name" fs = Some (OScal (SStr n));
  wi_at : wf (i_at x); wi_rot : wf (i_rot x);
  wi_refs : forall r, i_atref x = Some r \/ i_rotref x = Some r -> fst r < i /\ named l r }.
Record wf_group (l : list (inst F)) (k : string) (x : group F) : Prop := {
  wg_fields : wf_fields group_kinds (g_fs x);
  wg_key : has_char "/" k = false /\ k <> "" /\ k <> "." /\ has_char "000" k = false;
  wg_members : forall r, In r (g_members x) -> named l r }.
Record wf_instr (x : instr F) : Prop := {
  wn_fields : wf_fields instr_kinds (n_fs x);
  wn_insts : forall i y, nth_error (n_insts x) i = Some y -> wf_inst (n_insts x) i y;
  wn_names : forall i j y z, nth_error (n_insts x) i = Some y -> nth_error (n_insts x) j = Some z -> get "name" (i_fs y) = get "name" (i_fs z) -> i = j;
  wn_types : forall y z, In y (n_insts x) -> In z (n_insts x) -> get "name" (rec_fields (i_type y)) = get "name" (rec_fields (i_type z)) -> i_type y = i_type z;
  wn_keys : NoDup (map fst (n_groups x));
  wn_groups : forall k y, In (k, y) (n_groups x) -> wf_group (n_insts x) k y }.
End Spec.
Arguments wf {F}. Arguments wf_fields {F}. Arguments wf_instr {F}. Arguments wf_inst {F}. Arguments wf_group {F}. Arguments named {F}. Arguments fits_h5 {F}.

Section Proofs.
Variable F : Type.
Variables f0 f1 : F.
Variable ver : string.
Hypothesis ver_plain : has_char "/" ver = false.
Variable build : string -> list (string * obj F) -> res bool.
Variable derive : inst F -> obj F.
Variable comp_eq : obj F -> obj F -> bool.
Notation save := (save F f0 f1 ver). Notation load := (load F f0 f1 ver build).
Notation header := (header F ver).
Notation wf := (wf build). Notation wf_fields := (wf_fields build).

(** ** The handlers know every field of every class *)
Inductive fits : kind F -> slot F -> Prop :=
| fit_s b : fits (Sc b) (LAttr F)
| fit_o d : fits (Ob false) (LOpt F d)
| fit_n : fits (Ob true) (LOpt F ONone)
| fit_r : fits (Ob false) (LReq F)
| fit_l d : fits (Fix d) (LLost F d).
Fixpoint distinct (l : list string) : bool := match l with [] => true | x :: t => negb (existsb (String.eqb x) t) && distinct t end.
Lemma distinct_nodup l : distinct l = true -> NoDup l.
Proof.
  induction l as [|x t IH]; cbn; [constructor|]. intro H. apply andb_true_iff in H as [A B]. constructor; [|auto]. intro I. apply negb_true_iff in A. rewrite <- not_true_iff_false in A. apply A.
  apply existsb_exists. exists x. split; [auto|apply String.eqb_refl].
Qed.
Definition agree (kinds : list (string * kind F)) (sp : spec F) : Prop :=
  Forall2 (fun a b => fst a = fst b /\ fits (snd a) (snd b)) kinds (slots F sp) /\
  distinct (slot_names F sp) = true /\ distinct (map snd (s_attrs sp)) = true /\
  existsb (String.eqb KEY) (map snd (s_attrs sp)) = false.
Lemma agree_classes : Forall (fun p => exists sp, spec_of F f0 f1 (fst p) = Some sp /\ agree (snd p) sp) (classes F).
Proof.
  repeat (constructor; [eexists; split; [reflexivity|split; [cbn; repeat (constructor; [split; [reflexivity|constructor]|]); constructor|split; [reflexivity|split; reflexivity]]]|]). constructor.
Qed.
Lemma agree_inst : agree (inst_kinds F) (inst_spec F).
Proof. split; [cbn; repeat (constructor; [split; [reflexivity|constructor]|]); constructor|split; [reflexivity|split; reflexivity]]. Qed.
Lemma agree_instr : agree (instr_kinds F) (instr_spec F).
Proof. split; [cbn; repeat (constructor; [split; [reflexivity|constructor]|]); constructor|split; [reflexivity|split; reflexivity]]. Qed.
Lemma agree_group : agree (group_kinds F) (group_spec F).
Proof. split; [cbn; repeat (constructor; [split; [reflexivity|constructor]|]); constructor|split; [reflexivity|split; reflexivity]]. Qed.

Lemma fits_storable s : fits_h5 s -> @storable F s = true.
Proof. destruct s; cbn; auto. - intros ->. reflexivity. - intros [A B]. apply andb_true_iff. split; [now apply Z.leb_le|now apply Z.ltb_lt]. Qed.
Lemma existsb_in x l : existsb (String.eqb x) l = true <-> In x l.
Proof. rewrite existsb_exists. split; [intros (y & Y & E); apply String.eqb_eq in E; now subst|intro H; exists x; split; [auto|apply String.eqb_refl]]. Qed.
Lemma existsb_out x l : existsb (String.eqb x) l = false <-> ~ In x l.
Proof. rewrite <- existsb_in. now destruct (existsb _ l). Qed.

Lemma agree_slot kinds sp : agree kinds sp -> map fst kinds = slot_names F sp /\ forall n sl, In (n, sl) (slots F sp) -> exists k, In (n, k) kinds /\ fits k sl.
Proof.
  intros (A & _). split.
  - assert (E : map fst kinds = map fst (slots F sp)). { induction A as [|x y a b [E _] A IH]; cbn; [auto|]. now rewrite E, IH. }
    rewrite E. unfold slots, slot_names. rewrite !map_app, !map_map. cbn [fst]. now rewrite map_id.
  - intros n sl. induction A as [|[n1 k1] [n2 k2] a b [E Ft] A IH]; [intros []|]. cbn in E, Ft. intros [H|H].
    + injection H as -> ->. exists k1. split; [left; congruence|auto].
    + destruct (IH H) as (k & K & Kf). exists k. split; [now right|auto].
Qed.
Lemma good_of kinds sp fs : agree kinds sp -> map fst fs = map fst kinds ->
  (forall n b v, In (n, Sc b) kinds -> get n fs = Some v -> v = ONone /\ b = true \/ exists s, v = OScal s /\ fits_h5 s) ->
  (forall n b v, In (n, Ob b) kinds -> get n fs = Some v -> v <> ONone -> exists g, save v = Ok g /\ load g = Ok v) ->
  (forall n, In (n, Ob false) kinds -> get n fs <> Some ONone) -> (forall n v, In (n, Fix v) kinds -> get n fs = Some v) -> good F f0 f1 ver build sp fs.
Proof.
  intros A M Hs Ho Hn Hf. destruct (agree_slot _ _ A) as [En Sl]. destruct A as (_ & N1 & N2 & NK). apply distinct_nodup in N1, N2.
  assert (Has : forall n, In n (slot_names F sp) -> exists v, get n fs = Some v). { intros n I. destruct (get n fs) as [v|] eqn:E; [eauto|]. apply get_none in E. rewrite M, En in E. contradiction. }
  split; [congruence|]. split; [auto|]. split; [auto|]. split; [now apply existsb_out|].
  split; [|split; [|split]].
  - intros [n k] I. cbn [fst]. assert (I' : In (n, LAttr F) (slots F sp)) by (unfold slots; apply in_or_app; left; apply in_map_iff; exists (n, k); auto).
    destruct (Sl n _ I') as (kd & K & Ft). inversion Ft; subst. destruct (Has n) as (v & V). { unfold slot_names. apply in_or_app. left. apply in_map_iff. exists (n, k). auto. }
    destruct (Hs n b v K V) as [[-> _]|(s & -> & S)]; [auto|]. right. exists s. split; [auto|now apply fits_storable].
  - intros [n d] I. cbn [fst snd]. assert (I' : In (n, LOpt F d) (slots F sp)) by (unfold slots; apply in_or_app; right; apply in_or_app; left; apply in_map_iff; exists (n, d); auto).
    destruct (Sl n _ I') as (kd & K & Ft). destruct (Has n) as (v & V). { unfold slot_names. apply in_or_app. right. apply in_or_app. left. apply in_map_iff. exists (n, d). auto. }
    assert (D : v = ONone \/ v <> ONone) by (destruct v; auto; right; discriminate). inversion Ft; subst.
    + destruct D as [->|D]; [destruct (Hn n K V)|]. right. destruct (Ho n _ v K V D) as (g & G1 & G2). exists v, g. auto.
    + destruct D as [->|D]; [auto|]. right. destruct (Ho n _ v K V D) as (g & G1 & G2). exists v, g. auto.
  - intros n I. assert (I' : In (n, LReq F) (slots F sp)) by (unfold slots; apply in_or_app; right; apply in_or_app; right; apply in_or_app; left; apply in_map_iff; exists n; auto).
    destruct (Sl n _ I') as (kd & K & Ft). inversion Ft; subst. destruct (Has n) as (v & V). { unfold slot_names. apply in_or_app. right. apply in_or_app. right. apply in_or_app. auto. }
    assert (D : v <> ONone) by (intros ->; destruct (Hn n K V)). destruct (Ho n _ v K V D) as (g & G1 & G2). exists v, g. auto.
  - intros [n d] I. cbn [fst snd]. assert (I' : In (n, LLost F d) (slots F sp)) by (unfold slots; apply in_or_app; right; apply in_or_app; right; apply in_or_app; right; apply in_map_iff; exists (n, d); auto).
    destruct (Sl n _ I') as (kd & K & Ft). inversion Ft; subst. now apply Hf.
Qed.

(** ** Constructors *)
Lemma type_word_read d : data_from_name (type_word d) = d. Proof. now destruct d. Qed.
Lemma str_field_get n (fs : list (string * obj F)) s : get n fs = Some (OScal (SStr s)) -> str_field n fs = Some s.
Proof. unfold str_field. now intros ->. Qed.
Lemma list_field_get n (fs : list (string * obj F)) l : get n fs = Some (OList l) -> list_field F n fs = Some l.
Proof. unfold list_field. now intros ->. Qed.
Lemma has_type_dt o d : has_type F o d -> dt_field F o = Some d.
Proof. intros [cls fs d' I E]. unfold dt_field. apply existsb_in in I. rewrite I. rewrite (str_field_get _ _ _ E). cbn. now rewrite type_word_read. Qed.
Lemma all_type_one l d : all_type F l d -> one_type F l = Some d.
Proof.
  intros [N H]. unfold one_type. destruct l as [|x t]; [contradiction|]. cbn [map]. rewrite (has_type_dt x d (H x (or_introl eq_refl))).
  assert (B : forallb (fun x => match x with Some y => dtype_eqb d y | None => false end) (map (dt_field F) t) = true).
  { apply forallb_forall. intros y Y. apply in_map_iff in Y as (z & <- & Z). rewrite (has_type_dt z d (H z (or_intror Z))). now apply dtype_eqb_eq. }
  now rewrite B.
Qed.
Lemma op_typed_type cls fs d : op_typed F cls fs d -> op_type F cls fs = Some d.
Proof.
  intro H. destruct H as [fs l d E A|fs op l r Eo I El Er|fs op l r a b Eo I El Er A B|fs f l r a b Ef El Er A B]; unfold op_type; cbn [String.eqb Ascii.eqb Bool.eqb].
  - now rewrite (list_field_get _ _ _ E), (all_type_one _ _ A).
  - rewrite (str_field_get _ _ _ Eo), (list_field_get _ _ _ El), (list_field_get _ _ _ Er). apply existsb_in in I. now rewrite I.
  - rewrite (str_field_get _ _ _ Eo), (list_field_get _ _ _ El), (list_field_get _ _ _ Er). apply existsb_out in I. now rewrite I, (all_type_one _ _ A), (all_type_one _ _ B).
  - now rewrite (list_field_get _ _ _ Ef), (list_field_get _ _ _ El), (list_field_get _ _ _ Er), (all_type_one _ _ A), (all_type_one _ _ B).
Qed.
Lemma construct_ok cls kinds fs : In (cls, kinds) (classes F) -> map fst fs = map fst kinds -> sound F build cls fs -> construct F build cls fs = Ok (ORec cls fs).
Proof.
  intros I M (S1 & S2 & S3 & S4). unfold construct. destruct (existsb (String.eqb cls) ["UnaryOp"; "BinaryOp"; "TrinaryOp"]) eqn:E1.
  - apply existsb_in in E1. destruct (S1 E1) as (d & T & D). rewrite (op_typed_type _ _ _ T), (str_field_get _ _ _ D), type_word_read. now rewrite (proj2 (dtype_eqb_eq d d) eq_refl).
  - destruct (cls =?s "Value") eqn:E2.
    + apply String.eqb_eq in E2. subst cls. destruct (S2 eq_refl) as ((o & O & Io) & (d & D) & (s & Sh & Is)).
      assert (K : map fst fs = ["object_type"; "data_type"; "shape_type"; "value"]). { rewrite M. cbn in I. repeat (destruct I as [I|I]; [injection I; intros; subst; try discriminate; reflexivity|]). destruct I. }
      destruct fs as [|[n1 v1] [|[n2 v2] [|[n3 v3] [|[n4 v4] [|]]]]]; try discriminate. injection K as -> -> -> ->. cbn in O, D, Sh. injection O as ->. injection D as ->. injection Sh as ->.
      cbn [str_field get find fst snd option_map String.eqb Ascii.eqb Bool.eqb].
      assert (R1 : object_from_name o = Some o) by (cbn in Io; repeat (destruct Io as [<-|Io]; [reflexivity|]); destruct Io). rewrite R1.
      assert (R2 : shape_from_name s = s) by (cbn in Is; repeat (destruct Is as [<-|Is]; [reflexivity|]); destruct Is). rewrite R2.
      now destruct d.
    + destruct (cls =?s "DataSource") eqn:E3.
      * apply String.eqb_eq in E3. subst cls. destruct (S3 eq_refl) as (t & T & It). rewrite (str_field_get _ _ _ T). apply existsb_in in It. now rewrite It.
      * unfold registries. destruct (existsb (String.eqb cls) ["ModuleRemoteRegistry"; "GitHubRegistry"; "LocalRegistry"]) eqn:E4; [|reflexivity]. apply existsb_in in E4. now rewrite (S4 E4).
Qed.
Lemma class_dispatch cls kinds : In (cls, kinds) (classes F) -> existsb (String.eqb cls) scalar_classes = false /\ (cls =?s "list") = false /\ (cls =?s "tuple") = false.
Proof.
  intro I. assert (A : Forall (fun p => existsb (String.eqb (fst p)) scalar_classes = false /\ (fst p =?s "list") = false /\ (fst p =?s "tuple") = false) (classes F)) by (repeat constructor).
  rewrite Forall_forall in A. exact (A _ I).
Qed.

(** ** Objects *)
Definition comes_back (o : obj F) : Prop := o <> ONone /\ exists g, save o = Ok g /\ load g = Ok o.
Lemma map_save l : (forall x, In x l -> comes_back x) -> exists gs, map save l = map Ok gs /\ Forall2 (fun x g => load g = Ok x) l gs.
Proof.
  induction l as [|x t IH]; intro H; [exists []; split; [reflexivity|constructor]|]. destruct (H x (or_introl eq_refl)) as (_ & g & S & L). destruct IH as (gs & E & Ft); [intros; apply H; now right|].
  exists (g :: gs). cbn. rewrite S, E. split; [reflexivity|now constructor].
Qed.
Theorem objects_come_back o : wf o -> comes_back o.
Proof.
  induction 1 as [s S|l W IH|l W IH|cls kinds fs I M Hs Ho IH Hn Hf So].
  - split; [discriminate|]. cbn [Hdf5.save]. rewrite (fits_storable _ S). eexists. split; [reflexivity|]. cbn [Hdf5.load]. rewrite (class_in_header F ver ver_plain).
    assert (E : existsb (String.eqb (class_of s)) scalar_classes = true) by (destruct s; reflexivity). rewrite E. rewrite (check_header_ok F ver ver_plain). rewrite get_cons, String.eqb_refl, String.eqb_refl. reflexivity.
  - split; [discriminate|]. destruct (map_save l IH) as (gs & E & Ft). cbn [Hdf5.save]. rewrite E, sequence_ok. eexists. split; [reflexivity|]. cbn [Hdf5.load]. rewrite (class_in_header F ver ver_plain). cbn [existsb scalar_classes String.eqb Ascii.eqb Bool.eqb orb].
    rewrite (check_header_ok F ver ver_plain), (sequence_load F f0 f1 ver build "list" l gs Ft). reflexivity.
  - split; [discriminate|]. destruct (map_save l IH) as (gs & E & Ft). cbn [Hdf5.save]. rewrite E, sequence_ok. eexists. split; [reflexivity|]. cbn [Hdf5.load]. rewrite (class_in_header F ver ver_plain). cbn [existsb scalar_classes String.eqb Ascii.eqb Bool.eqb orb].
    rewrite (check_header_ok F ver ver_plain), (sequence_load F f0 f1 ver build "tuple" l gs Ft). reflexivity.
  - split; [discriminate|]. pose proof agree_classes as AC. rewrite Forall_forall in AC. destruct (AC _ I) as (sp & Sp & Ag). cbn [fst snd] in Sp, Ag.
    assert (Gd : good F f0 f1 ver build sp fs). { apply (good_of kinds); auto. intros n b v K V D. destruct (IH n b v K V D) as (_ & g & G1 & G2). eauto. }
    destruct (fields_round F f0 f1 ver build sp cls fs Gd) as (a & m & Out & _ & _ & _ & In_). cbn [Hdf5.save]. rewrite Sp. exists (G (header cls :: a) m). split; [exact Out|].
    cbn [Hdf5.load]. rewrite (class_in_header F ver ver_plain). destruct (class_dispatch cls kinds I) as (D1 & D2 & D3). rewrite D1, D2, D3, Sp, (check_header_ok F ver ver_plain).
    specialize (In_ [] []). rewrite !app_nil_r in In_. rewrite In_ by auto. cbn [rbind]. now apply (construct_ok cls kinds).
Qed.

Lemma wf_fields_good kinds sp fs : agree kinds sp -> wf_fields kinds fs -> good F f0 f1 ver build sp fs.
Proof.
  intros A (M & Hs & Ho & Hn & Hf). apply (good_of kinds); auto. intros n b v K V D. destruct (objects_come_back v (Ho n b v K V D)) as (_ & g & G1 & G2). eauto.
Qed.

(** ** Instances *)
Notation save_inst := (save_inst F f0 f1 ver). Notation load_inst := (load_inst F f0 f1 ver build derive).
Notation wf_inst := (wf_inst build).
Lemma name_fits kinds fs n s b : wf_fields kinds fs -> In (n, Sc b) kinds -> get n fs = Some (OScal s) -> fits_h5 s.
Proof. intros (_ & Hs & _) K G0. destruct (Hs n b _ K G0) as [[E _]|(t & E & Ft)]; [discriminate|]. injection E as ->. auto. Qed.
Lemma ref_fits l i x r : (forall j y, nth_error l j = Some y -> wf_inst l j y) -> wf_inst l i x -> i_atref x = Some r \/ i_rotref x = Some r -> @storable F (SStr (snd r)) = true.
Proof.
  intros H W R. destruct (wi_refs _ _ _ _ _ W r R) as (_ & y & Y & N). apply fits_storable. refine (name_fits (inst_kinds F) (i_fs y) "name" _ false _ _ N); [|cbn; auto].
  exact (wi_fields _ _ _ _ _ (H _ _ Y)).
Qed.
Lemma atref_ok l i x k : (forall j y, nth_error l j = Some y -> wf_inst l j y) -> wf_inst l i x ->
  str_attr F k (option_map snd (i_atref x)) = Ok (match i_atref x with Some r => [(k, SStr (snd r))] | None => [] end).
Proof. intros H W. destruct (i_atref x) as [r|] eqn:E; cbn [option_map str_attr]; [|reflexivity]. now rewrite (ref_fits l i x r H W (or_introl E)). Qed.
Lemma rotref_ok l i x k : (forall j y, nth_error l j = Some y -> wf_inst l j y) -> wf_inst l i x ->
  str_attr F k (option_map snd (i_rotref x)) = Ok (match i_rotref x with Some r => [(k, SStr (snd r))] | None => [] end).
Proof. intros H W. destruct (i_rotref x) as [r|] eqn:E; cbn [option_map str_attr]; [|reflexivity]. now rewrite (ref_fits l i x r H W (or_intror E)). Qed.
Lemma notin_get {A} k (l : list (string * A)) (ks : list string) : incl (map fst l) ks -> existsb (String.eqb k) ks = false -> get k l = None.
Proof. intros I E. apply get_none. intro N. apply existsb_out in E. auto. Qed.

Lemma inst_back l i x : (forall j y, nth_error l j = Some y -> wf_inst l j y) -> wf_inst l i x ->
  exists g, save_inst x = Ok g /\ forall known comps,
    (forall r, fst r < i -> named l r -> find (fun q => snd q =?s snd r) known = Some r) ->
    (forall n, get "name" (rec_fields (i_type x)) = Some (OScal (SStr n)) -> get n comps = Some (i_type x)) -> load_inst known comps g = Ok x.
Proof.
  intros All W. pose proof (wf_fields_good _ _ _ agree_inst (wi_fields _ _ _ _ _ W)) as Gd.
  destruct (fields_round F f0 f1 ver build _ "Instance" _ Gd) as (a & m & Out & Ia & Im & _ & Back).
  destruct (wi_type _ _ _ _ _ W) as (Wt & fs & tn & Et & Tn).
  destruct (objects_come_back _ (wi_at _ _ _ _ _ W)) as (_ & gv & Sv & Lv). destruct (objects_come_back _ (wi_rot _ _ _ _ _ W)) as (_ & gw & Sw & Lw).
  assert (St : @storable F (SStr tn) = true).
  { apply fits_storable. rewrite Et in Wt. inversion Wt as [| | |cls kinds fs' I M Hs]; subst. refine (match Hs "name" true _ _ Tn with or_introl (conj E _) => _ | or_intror (ex_intro _ s (conj E Ft)) => _ end); [|discriminate|injection E as ->; exact Ft].
    cbn in I. repeat (destruct I as [I|I]; [first [discriminate I|injection I as <-; cbn; now left]|]). destruct I. }
  unfold Hdf5.save_inst. rewrite Out, Et. cbn [rec_fields]. rewrite (str_field_get _ _ _ Tn). cbn [str_attr]. rewrite St. cbn [rbind]. rewrite Sv. cbn [rbind]. rewrite (atref_ok l i x _ All W). cbn [rbind].
  rewrite Sw. cbn [rbind]. rewrite (rotref_ok l i x _ All W). cbn [rbind]. eexists. split; [reflexivity|]. intros known comps Hk Hc.
  set (ra := match i_atref x with Some r => [("at_reference", SStr (snd r))] | None => [] end). set (rr := match i_rotref x with Some r => [("rotate_reference", SStr (snd r))] | None => [] end).
  unfold Hdf5.load_inst. cbn [app]. rewrite (check_header_ok F ver ver_plain). unfold loaded.
  assert (B0 : fields_in F (inst_spec F) (header "Instance" :: a ++ [("type", SStr tn)] ++ ra ++ rr) (map (fun p => match p with (n, m) => (n, load m) end) (m ++ [("at_vector", gv); ("rotate_angles", gw)])) = Ok (i_fs x)).
  { apply Back.
    - intros k K. cbn in K. subst ra rr. repeat (destruct K as [<-|K]; [destruct (i_atref x), (i_rotref x); reflexivity|]). destruct K.
    - intros k K. cbn in K. repeat (destruct K as [<-|K]; [reflexivity|]). destruct K. }
  cbn [app] in B0. rewrite B0. clear B0.
  cbn [rbind]. unfold Hdf5.header.
  assert (T1 : get "type" ((KEY, SStr (ver ++ "/" ++ "Instance")%string) :: a ++ ("type", SStr tn) :: ra ++ rr) = Some (SStr tn)).
  { rewrite get_cons, get_app, (notin_get "type" a _ Ia eq_refl). reflexivity. }
  assert (T2 : get "at_reference" ((KEY, SStr (ver ++ "/" ++ "Instance")%string) :: a ++ ("type", SStr tn) :: ra ++ rr) = option_map (fun r => SStr (snd r)) (i_atref x)).
  { rewrite get_cons, get_app, (notin_get "at_reference" a _ Ia eq_refl). subst ra rr. destruct (i_atref x), (i_rotref x); reflexivity. }
  assert (T3 : get "rotate_reference" ((KEY, SStr (ver ++ "/" ++ "Instance")%string) :: a ++ ("type", SStr tn) :: ra ++ rr) = option_map (fun r => SStr (snd r)) (i_rotref x)).
  { rewrite get_cons, get_app, (notin_get "rotate_reference" a _ Ia eq_refl). subst ra rr. destruct (i_atref x), (i_rotref x); reflexivity. }
  cbn [String.append app] in T1, T2, T3 |- *. rewrite T1, T2, T3. clear T1 T2 T3.
  cbn [rec_fields] in Hc. rewrite (Hc tn Tn). rewrite !get_map, !get_app, (notin_get "at_vector" m _ Im eq_refl), (notin_get "rotate_angles" m _ Im eq_refl).
  cbn [get find fst snd String.eqb Ascii.eqb Bool.eqb option_map]. rewrite Lv, Lw.
  assert (Fr : forall o, (forall r, o = Some r -> i_atref x = Some r \/ i_rotref x = Some r) -> find_ref F known (option_map (fun r => SStr (snd r)) o) = Ok o).
  { intros [r|] H; [|reflexivity]. cbn [option_map find_ref]. destruct (wi_refs _ _ _ _ _ W r (H r eq_refl)) as [L N]. now rewrite (Hk r L N). }
  rewrite (Fr (i_atref x)) by auto. cbn [rbind]. rewrite (Fr (i_rotref x)) by auto. cbn [rbind]. f_equal.
  destruct x as [xf xt xa xar xr xrr]. cbn in *. unfold post_init. cbn [i_fs i_type i_at i_atref i_rot i_rotref].
  destruct (str_field "mode" xf); [|now rewrite Et]. destruct (get "orientation" xf) as [[| | | |]|] eqn:Eo; try (now rewrite Et).
  destruct (wi_fields _ _ _ _ _ W) as (_ & _ & _ & Hn & _). cbn in Hn. destruct (Hn "orientation" ltac:(tauto) Eo).
Qed.

(** ** The list of instances *)
Lemma inst_name_get (x : inst F) n : get "name" (i_fs x) = Some (OScal (SStr n)) <-> inst_name x = Some n.
Proof.
  unfold inst_name, str_field. split; [now intros ->|]. destruct (get "name" (i_fs x)) as [[|[| | |]| | |]|]; intro H; try discriminate. now injection H as ->.
Qed.
Lemma known_in l : forall i acc r, In r (known_of F i l acc) <-> In r acc \/ (i <= fst r /\ named l (fst r - i, snd r)).
Proof.
  induction l as [|x t IH]; intros i acc r; cbn [known_of].
  - split; [auto|]. intros [H|(_ & y & Y & _)]; [auto|]. cbn in Y. destruct (fst r - i); discriminate.
  - rewrite IH. split.
    + intros [H|(L & y & Y & N)].
      * destruct (inst_name x) as [n|] eqn:E; [|auto]. destruct H as [<-|H]; [|auto]. right. cbn [fst snd]. split; [lia|]. exists x. cbn [fst snd]. rewrite Nat.sub_diag. split; [reflexivity|now apply inst_name_get].
      * right. split; [lia|]. exists y. cbn [fst snd] in *. replace (fst r - i) with (S (fst r - S i)) by lia. auto.
    + intros [H|(L & y & Y & N)].
      * left. destruct (inst_name x); [now right|auto].
      * cbn [fst snd] in Y, N. destruct (fst r - i) as [|k] eqn:E.
        -- cbn in Y. injection Y as <-. left. apply inst_name_get in N. rewrite N. left. destruct r; cbn in *. f_equal. lia.
        -- right. split; [lia|]. exists y. cbn [fst snd]. replace (fst r - S i) with k by lia. auto.
Qed.
Lemma known_of_app a b : forall i acc, known_of F i (a ++ b) acc = known_of F (i + List.length a) b (known_of F i a acc).
Proof. induction a as [|x t IH]; intros i acc; cbn [app known_of List.length]; [now rewrite Nat.add_0_r|]. rewrite IH. f_equal. lia. Qed.
Lemma known_find l r : (forall i j y z, nth_error l i = Some y -> nth_error l j = Some z -> get "name" (i_fs y) = get "name" (i_fs z) -> i = j) ->
  forall a b, l = a ++ b -> named a r -> find (fun q => snd q =?s snd r) (known_of F 0 a []) = Some r.
Proof.
  intros U a b -> N. destruct (find _ _) as [q|] eqn:E.
  - apply find_some in E as [I E]. apply String.eqb_eq in E. apply known_in in I as [[]|(_ & y & Y & Ny)]. cbn [fst snd] in Y, Ny. rewrite Nat.sub_0_r in Y. destruct N as (z & Z & Nz).
    assert (Y' : nth_error (a ++ b) (fst q) = Some y) by (rewrite nth_error_app1; [auto|apply nth_error_Some; congruence]).
    assert (Z' : nth_error (a ++ b) (fst r) = Some z) by (rewrite nth_error_app1; [auto|apply nth_error_Some; congruence]).
    assert (X : fst q = fst r) by (apply (U _ _ _ _ Y' Z'); congruence). destruct q, r; cbn [fst snd] in X, E; subst; reflexivity.
  - exfalso. assert (I : In r (known_of F 0 a [])). { apply known_in. right. split; [lia|]. rewrite Nat.sub_0_r. now destruct r. }
    pose proof (find_none _ _ E _ I) as H. cbn in H. rewrite String.eqb_refl in H. discriminate.
Qed.
Lemma named_before (l : list (inst F)) i r a b : l = a ++ b -> List.length a = i -> fst r < i -> named l r -> named a r.
Proof. intros -> L H (x & X & N). exists x. split; [|auto]. rewrite nth_error_app1 in X; [auto|lia]. Qed.

Lemma insts_back l comps : (forall j y, nth_error l j = Some y -> wf_inst l j y) ->
  (forall i j y z, nth_error l i = Some y -> nth_error l j = Some z -> get "name" (i_fs y) = get "name" (i_fs z) -> i = j) ->
  exists gs, map save_inst l = map Ok gs /\ ((forall x n, In x l -> get "name" (rec_fields (i_type x)) = Some (OScal (SStr n)) -> get n comps = Some (i_type x)) ->
    load_insts F f0 f1 ver build derive (pad_of (List.length gs)) 0 (List.length gs) [] comps (numbered (pad_of (List.length gs)) 0 gs) = Ok l).
Proof.
  intros W U.
  assert (A : forall b a, l = a ++ b -> exists gs, map save_inst b = map Ok gs /\ ((forall x n, In x l -> get "name" (rec_fields (i_type x)) = Some (OScal (SStr n)) -> get n comps = Some (i_type x)) ->
     forall pad ms, (forall k g, nth_error gs k = Some g -> get (entry_name (List.length a + k) pad) ms = Some g) -> load_insts F f0 f1 ver build derive pad (List.length a) (List.length gs) (known_of F 0 a []) comps ms = Ok b)).
  { induction b as [|x t IH]; intros a E; [exists []; split; reflexivity|].
    assert (X : nth_error l (List.length a) = Some x) by (rewrite E, nth_error_app2, Nat.sub_diag by lia; reflexivity).
    destruct (inst_back l _ x W (W _ _ X)) as (g & Sg & Lg). destruct (IH (a ++ [x])) as (gs & Sgs & Lgs); [now rewrite <- app_assoc|].
    exists (g :: gs). cbn [map]. rewrite Sg, Sgs. split; [reflexivity|]. intros C pad ms Hm. cbn [load_insts List.length].
    pose proof (Hm 0 g eq_refl) as H0. rewrite Nat.add_0_r in H0. rewrite H0.
    rewrite Lg; [|intros r Lr N; apply (known_find l r U a (x :: t) E); now apply (named_before l (List.length a) r a (x :: t))|intros n; apply C; rewrite E; apply in_or_app; right; now left].
    cbn [rbind]. destruct (wi_name _ _ _ _ _ (W _ _ X)) as (nm & Nm). apply inst_name_get in Nm. rewrite Nm.
    assert (Kn : known_of F 0 (a ++ [x]) [] = (List.length a, nm) :: known_of F 0 a []) by (rewrite known_of_app; cbn [known_of]; rewrite Nm; reflexivity).
    assert (Ln : List.length (a ++ [x]) = S (List.length a)) by (rewrite app_length; cbn; lia). rewrite Kn, Ln in Lgs.
    rewrite (Lgs C pad ms); [reflexivity|]. intros k g' K. specialize (Hm (S k) g' K). now replace (S (List.length a) + k) with (List.length a + S k) by lia. }
  destruct (A l [] eq_refl) as (gs & S1 & L1). exists gs. split; [auto|]. intro C. apply (L1 C). intros k g K. cbn [List.length]. now rewrite numbered_get.
Qed.

(** ** Components *)
(** equal components have equal names *)
Hypothesis comp_eq_name : forall a b, comp_eq a b = true -> get "name" (rec_fields a) = get "name" (rec_fields b).
Lemma dedup_in l : forall seen x, In x (dedup F comp_eq seen l) -> In x l.
Proof. induction l as [|y t IH]; intros seen x; cbn; [auto|]. destruct (existsb _ _); intro H; [right; eauto|]. destruct H as [->|H]; [auto|right; eauto]. Qed.
Lemma in_dedup l : forall seen x, (forall a b, In a (seen ++ l) -> In b (seen ++ l) -> get "name" (rec_fields a) = get "name" (rec_fields b) -> a = b) -> In x l -> In x seen \/ In x (dedup F comp_eq seen l).
Proof.
  induction l as [|y t IH]; intros seen x U; cbn; [tauto|]. intros [->|H].
  - destruct (existsb _ _) eqn:E; [|right; now left]. apply existsb_exists in E as (z & Z & E). apply comp_eq_name in E. apply U in E; [subst; auto|apply in_or_app; right; now left|apply in_or_app; auto].
  - destruct (existsb _ _) eqn:E.
    + apply IH; [|auto]. intros a b A B. apply U; rewrite in_app_iff in *; cbn; tauto.
    + destruct (IH (seen ++ [y]) x) as [I|I]; auto; [|apply in_app_or in I as [I|[->|[]]]; [auto|right; now left]|right; now right].
      intros a b A B. apply U; rewrite !in_app_iff in *; cbn in *; tauto.
Qed.
Lemma comps_find l c n : (forall a b, In a l -> In b l -> get "name" (rec_fields a) = get "name" (rec_fields b) -> a = b) -> In c l -> get "name" (rec_fields c) = Some (OScal (SStr n)) ->
  get n (comps_by_name F l) = Some c.
Proof.
  intros U I N. unfold comps_by_name. set (f := fun c : obj F => match str_field "name" (rec_fields c) with Some n => [(n, c)] | None => [] end).
  destruct (get n (rev (flat_map f l))) as [d|] eqn:E.
  - apply get_in, in_rev, in_flat_map in E as (x & X & Fx). unfold f in Fx. destruct (str_field "name" (rec_fields x)) as [m|] eqn:Em; [|destruct Fx]. destruct Fx as [Fx|[]]. injection Fx as -> ->.
    f_equal. apply U; auto. rewrite N. unfold str_field in Em. destruct (get "name" (rec_fields d)) as [[|[| | |]| | |]|]; try discriminate. now injection Em as ->.
  - exfalso. apply get_none in E. apply E. apply in_map_iff. exists (n, c). split; [reflexivity|]. apply in_rev. rewrite rev_involutive. apply in_flat_map. exists c. split; [auto|]. unfold f. rewrite (str_field_get _ _ _ N). now left.
Qed.

(** ** Groups *)
Notation save_group := (save_group F f0 f1 ver). Notation load_group := (load_group F f0 f1 ver build).
Lemma group_back l k x : (forall j y, nth_error l j = Some y -> wf_inst l j y) -> wf_group build l k x ->
  exists g, save_group x = Ok g /\ forall known, (forall r, named l r -> find (fun q => snd q =?s snd r) known = Some r) -> load_group known g = Ok x.
Proof.
  intros All W. pose proof (wf_fields_good _ _ _ agree_group (wg_fields _ _ _ _ _ W)) as Gd.
  destruct (fields_round F f0 f1 ver build _ "Group" _ Gd) as (a & m & Out & Ia & Im & _ & Back).
  assert (Wn : wf (OList (map (fun r => OScal (SStr (snd r))) (g_members x)))).
  { constructor. intros y Y. apply in_map_iff in Y as (r & <- & R). constructor. destruct (wg_members _ _ _ _ _ W r R) as (z & Z & N).
    refine (name_fits (inst_kinds F) (i_fs z) "name" _ false _ _ N); [|cbn; auto]. exact (wi_fields _ _ _ _ _ (All _ _ Z)). }
  destruct (objects_come_back _ Wn) as (_ & gn & Sn & Ln). unfold Hdf5.save_group. rewrite Out, Sn. cbn [rbind]. eexists. split; [reflexivity|]. intros known Hk.
  unfold Hdf5.load_group. rewrite (check_header_ok F ver ver_plain). unfold loaded. specialize (Back [] [("member_names", gn)]). rewrite app_nil_r in Back. rewrite Back; [|auto|].
  2:{ intros n K. cbn in K. repeat (destruct K as [<-|K]; [reflexivity|]). destruct K. }
  cbn [rbind]. rewrite get_map, get_app, (notin_get "member_names" m _ Im eq_refl). cbn [get find fst snd String.eqb Ascii.eqb Bool.eqb option_map]. rewrite Ln.
  unfold members_in. destruct x as [xf xm]. cbn [g_fs g_members] in *.
  assert (C : collect (fun o : obj F => match o with OScal (SStr n) => match find (fun r => snd r =?s n) known with Some r => Ok [r] | None => Raise end | _ => Raise end) (map (fun r => OScal (SStr (snd r))) xm) = Ok xm).
  { assert (H : forall r, In r xm -> named l r) by (intros r R; exact (wg_members _ _ _ _ _ W r R)). clear - H Hk. induction xm as [|r t IH]; cbn [map collect]; [reflexivity|]. rewrite (Hk r (H r (or_introl eq_refl))). cbn [rbind]. rewrite IH by (intros; apply H; now right). reflexivity. }
  rewrite C. reflexivity.
Qed.
Definition group_file (x : group F) : h5 F := match save_group x with Ok g => g | _ => D (SBool false) end.
Lemma key_plain k : has_char "/" k = false /\ k <> "" /\ k <> "." /\ has_char "000" k = false -> @plain_key F k = true.
Proof. intros (A & B & C & E). unfold plain_key. cbn [storable]. rewrite A, E. apply String.eqb_neq in B, C. now rewrite B, C. Qed.
Lemma groups_out gs : forall ms, (forall k x, In (k, x) gs -> @plain_key F k = true /\ exists g, save_group x = Ok g) -> NoDup (map fst ms ++ map fst gs) ->
  save_groups F f0 f1 ver gs ms = Ok (ms ++ map (fun q => (fst q, group_file (snd q))) gs).
Proof.
  induction gs as [|[k x] t IH]; intros ms H N; cbn [save_groups map]; [now rewrite app_nil_r|]. destruct (H k x (or_introl eq_refl)) as (P & g & S). rewrite P.
  cbn [map fst] in N. assert (E : get k ms = None). { apply get_none. apply NoDup_remove_2 in N. intro I. apply N. apply in_or_app. auto. }
  rewrite E, S. cbn [rbind]. rewrite IH; [|intros; apply H; now right|rewrite map_app, <- app_assoc; exact N]. rewrite <- app_assoc. assert (GF : group_file x = g) by (unfold group_file; now rewrite S). cbn [app fst snd]. now rewrite GF.
Qed.

(** ** Instruments *)
Notation save_instr := (save_instr F f0 f1 ver comp_eq). Notation load_instr := (load_instr F f0 f1 ver build derive).
Theorem instrument_back x : wf_instr build x -> exists g, save_instr x = Ok g /\ load_instr g = Ok (mkInstr (n_fs x) (n_insts x) (by_key (n_groups x))).
Proof.
  intros [Wf Wi Wn Wt Wk Wg]. pose proof (wf_fields_good _ _ _ agree_instr Wf) as Gd.
  destruct (fields_round F f0 f1 ver build _ "Instr" _ Gd) as (a & m & Out & Ia & Im & _ & Back).
  set (cs := component_types F comp_eq (n_insts x)).
  assert (Ut : forall p q, In p (map i_type (n_insts x)) -> In q (map i_type (n_insts x)) -> get "name" (rec_fields p) = get "name" (rec_fields q) -> p = q).
  { intros p q P Q E. apply in_map_iff in P as (y & <- & Y), Q as (z & <- & Z). now apply Wt. }
  assert (Wc : wf (OList cs)).
  { constructor. intros c C. apply dedup_in in C. apply in_map_iff in C as (y & <- & Y). apply In_nth_error in Y as (i & Y). exact (proj1 (wi_type _ _ _ _ _ (Wi _ _ Y))). }
  destruct (objects_come_back _ Wc) as (_ & gc & Sc0 & Lc).
  destruct (insts_back (n_insts x) (comps_by_name F cs) Wi Wn) as (gs & Si & Li).
  assert (Cf : forall y n, In y (n_insts x) -> get "name" (rec_fields (i_type y)) = Some (OScal (SStr n)) -> get n (comps_by_name F cs) = Some (i_type y)).
  { intros y n Y N. apply comps_find; [|destruct (in_dedup (map i_type (n_insts x)) [] (i_type y) Ut) as [[]|I]; [now apply in_map|exact I]|auto].
    intros p q P Q. apply Ut; [now apply dedup_in in P|now apply dedup_in in Q]. }
  specialize (Li Cf).
  assert (Gp : forall k y, In (k, y) (n_groups x) -> @plain_key F k = true /\ exists g, save_group y = Ok g).
  { intros k y I. pose proof (Wg k y I) as W. split; [apply key_plain; exact (wg_key _ _ _ _ _ W)|]. destruct (group_back _ k y Wi W) as (g & S1 & _). eauto. }
  pose proof (groups_out (n_groups x) [] Gp Wk) as Go. cbn [app] in Go.
  unfold Hdf5.save_instr. rewrite Out, Go. cbn [rbind]. rewrite Si, sequence_ok. cbn [rbind]. fold cs. rewrite Sc0. cbn [rbind]. eexists. split; [reflexivity|].
  unfold Hdf5.load_instr. rewrite (check_header_ok F ver ver_plain). unfold loaded. cbv zeta.
  match goal with |- context [m ++ ?m'] => specialize (Back [] m') end. rewrite (app_nil_r a) in Back. rewrite Back; [|auto|intros n K; cbn in K; repeat (destruct K as [<-|K]; [reflexivity|]); destruct K]. clear Back.
  cbn [rbind]. rewrite get_map, !get_app, (notin_get "components" m _ Im eq_refl), (notin_get "instances" m _ Im eq_refl), (notin_get "groups" m _ Im eq_refl).
  cbn [get find fst snd String.eqb Ascii.eqb Bool.eqb option_map]. rewrite Lc, !(check_header_ok F ver ver_plain), count_ok, Li. cbn [rbind].
  assert (Kf : forall r, named (n_insts x) r -> find (fun q => snd q =?s snd r) (known_of F 0 (n_insts x) []) = Some r).
  { intros r N. apply (known_find (n_insts x) r Wn (n_insts x) []); [now rewrite app_nil_r|auto]. }
  unfold load_groups. rewrite (by_key_map group_file).
  rewrite (collect_ok _ (fun p => (fst p, match load_group (known_of F 0 (n_insts x) []) (snd p) with Ok y => y | _ => mkGroup [] [] end))).
  - cbn [rbind]. f_equal. f_equal. rewrite map_map. rewrite <- (map_id (by_key (n_groups x))) at 2. apply map_ext_in. intros [k y] I. cbn [fst snd].
    apply (Permutation_in _ (by_key_perm _)) in I. destruct (group_back _ k y Wi (Wg k y I)) as (g & S1 & L1). unfold group_file. now rewrite S1, (L1 _ Kf).
  - intros p P. apply in_map_iff in P as ([k y] & <- & I). cbn [fst snd]. apply (Permutation_in _ (by_key_perm _)) in I. destruct (group_back _ k y Wi (Wg k y I)) as (g & S1 & L1). unfold group_file. now rewrite S1, (L1 _ Kf).
Qed.
End Proofs.

(** * C47 *)
(** every object of the stored classes comes back as it was, at any depth and any length of its lists *)
Theorem C47_object_round_trip F (f0 f1 : F) ver build : has_char "/" ver = false ->
  forall o, wf build o -> exists g, save F f0 f1 ver o = Ok g /\ load F f0 f1 ver build g = Ok o.
Proof. intros V o W. exact (proj2 (objects_come_back F f0 f1 ver V build o W)). Qed.
Print Assumptions C47_object_round_trip.

(** an instrument comes back with the same fields, the same instances in the same order and the same references; the groups are
    the same mapping, listed in another order.  Partial: [wf_instr] leaves out what the theorems below refute. *)
Theorem C47_instrument_round_trip_partial F (f0 f1 : F) ver build derive comp_eq : has_char "/" ver = false ->
  (forall a b, comp_eq a b = true -> get "name" (rec_fields a) = get "name" (rec_fields b)) ->
  forall x, wf_instr build x -> exists g gs, save_instr F f0 f1 ver comp_eq x = Ok g /\
    load_instr F f0 f1 ver build derive g = Ok (mkInstr (n_fs x) (n_insts x) gs) /\ Permutation gs (n_groups x) /\ forall k, get k gs = get k (n_groups x).
Proof.
  intros V C x W. destruct (instrument_back F f0 f1 ver V build derive comp_eq C x W) as (g & S1 & L1). exists g, (by_key (n_groups x)). split; [exact S1|]. split; [exact L1|].
  pose proof (by_key_perm (n_groups x)) as P. split; [exact P|]. intro k. pose proof (wn_keys _ _ _ W) as N.
  assert (N' : NoDup (map fst (by_key (n_groups x)))) by (apply (Permutation_NoDup (Permutation_sym (Permutation_map fst P)) N)).
  destruct (get k (n_groups x)) as [v|] eqn:E.
  - apply in_get; [auto|]. apply (Permutation_in _ (Permutation_sym P)). now apply get_in.
  - apply get_none in E. apply get_none. intro I. apply E. apply (Permutation_in _ (Permutation_map fst P) I).
Qed.
Print Assumptions C47_instrument_round_trip_partial.

(** ** What does not come back *)
(** an object of a class without a handler is written as an empty group, and whatever contains it cannot be loaded: so for
    an instrument with an InMemoryRegistry *)
Lemma entries_all F pad l : forall i ms r, entries F pad i l ms = Ok r -> exists gs, l = map Ok gs.
Proof.
  induction l as [|x t IH]; intros i ms r; [exists []; auto|]. cbn. destruct x as [g| |]; try discriminate. destruct (get _ ms); [discriminate|]. intro H. apply IH in H as (gs & ->). exists (g :: gs). auto.
Qed.
Lemma items_all {A} pad (lm : list (string * res A)) n : forall i r, items pad i n lm = Ok r -> forall k, k < n -> exists v, get (entry_name (i + k) pad) lm = Some (Ok v).
Proof.
  induction n as [|n IH]; intros i r H k L; [lia|]. cbn [items] in H. destruct (get (entry_name i pad) lm) as [[v| |]|] eqn:E; try discriminate. destruct k as [|k]; [rewrite Nat.add_0_r; eauto|].
  destruct (items pad (S i) n lm) as [t| |] eqn:T; try discriminate. assert (L' : k < n) by lia. destruct (IH (S i) t T k L') as (w & W). exists w. replace (i + S k) with (S i + k) by lia. exact W.
Qed.
Theorem C47_unsupported_class_refuted F (f0 f1 : F) ver build cls fs : has_char "/" ver = false -> spec_of F f0 f1 cls = None ->
  save F f0 f1 ver (ORec cls fs) = Ok (G [] []) /\
  forall l g o, In (ORec cls fs) l -> save F f0 f1 ver (OTup l) = Ok g -> load F f0 f1 ver build g <> Ok o.
Proof.
  intros V Sp. assert (E0 : save F f0 f1 ver (ORec cls fs) = Ok (G [] [])) by (cbn; now rewrite Sp). split; [exact E0|]. intros l g o I Sv Ld.
  cbn [save] in Sv. unfold sequence in Sv. destruct (entries _ _ _ _ _) as [ms| |] eqn:E; try discriminate. destruct (entries_all _ _ _ _ _ _ E) as (gs & Eg).
  assert (Sq : sequence F ver "tuple" (map (save F f0 f1 ver) l) = Ok g) by (unfold sequence; rewrite E; exact Sv). rewrite Eg, sequence_ok in Sq. injection Sq as <-.
  cbn [load] in Ld. rewrite (class_in_header F ver V) in Ld. cbn [existsb scalar_classes String.eqb Ascii.eqb Bool.eqb orb] in Ld. rewrite (check_header_ok F ver V) in Ld.
  unfold sequence_in in Ld. rewrite count_ok in Ld. destruct (items _ _ _ _) as [r| |] eqn:Ei; try discriminate.
  apply In_nth_error in I as (k & K). assert (Kg : nth_error gs k = Some (G [] [])).
  { assert (H : nth_error (map (save F f0 f1 ver) l) k = Some (Ok (G [] []))) by (rewrite nth_error_map, K; cbn [option_map]; now rewrite E0). rewrite Eg, nth_error_map in H. destruct (nth_error gs k); cbn in H; congruence. }
  destruct (items_all _ _ _ _ _ Ei k) as (v & Hv). { apply nth_error_Some. congruence. }
  rewrite get_map, numbered_get, Kg in Hv. cbn in Hv. discriminate.
Qed.
Print Assumptions C47_unsupported_class_refuted.
Example C47_unsupported_class_nonvacuous : spec_of nat 0 1 "InMemoryRegistry" = None /\ exists g,
  save nat 0 1 "1.0" (OTup [ORec "InMemoryRegistry" []]) = Ok g /\ load nat 0 1 "1.0" (fun _ _ => Ok true) g = Raise.
Proof. split; [reflexivity|]. eexists. split; reflexivity. Qed.

(** the priority of a registry is not kept: every local registry comes back with 10 *)
Definition local_registry {F} (name root : string) (p : Z) : obj F := ORec "LocalRegistry" [("name", OScal (SStr name)); ("root", OScal (SStr root)); ("priority", OScal (SInt p))].
Ltac each_in K := cbn in K; repeat (destruct K as [K|K]; [first [discriminate K|injection K; clear K; intros; subst]|]); try (destruct K).
Ltac each_get V := cbn in V; try discriminate V; try (injection V; clear V; intros; subst).
Lemma wf_fields_rec F build cls kinds fs : In (cls, kinds) (classes F) -> wf_fields build kinds fs -> sound F build cls fs -> wf build (ORec cls fs).
Proof. intros I (A & B & C & D & E) S. now apply (wf_rec F build cls kinds). Qed.
Theorem C47_registry_priority_refuted F (f0 f1 : F) ver build name root p : has_char "/" ver = false -> has_char "000" name = false -> has_char "000" root = false ->
  (forall fs, build "LocalRegistry" fs = Ok true) -> p <> 10%Z ->
  exists g o, save F f0 f1 ver (local_registry name root p) = Ok g /\ load F f0 f1 ver build g = Ok o /\ o = local_registry name root 10 /\ o <> local_registry name root p.
Proof.
  intros V N1 N2 B P. assert (W : wf build (@local_registry F name root 10)).
  { unfold local_registry. eapply wf_fields_rec; [right; right; right; right; right; right; right; left; reflexivity| |].
    - split; [reflexivity|]. split; [|split; [|split]].
      + intros n b v K G0. each_in K; each_get G0; right; eexists; (split; [reflexivity|assumption]).
      + intros n b v K. each_in K.
      + intros n K. each_in K.
      + intros n v K. each_in K. reflexivity.
    - split; [intros K; each_in K|]. split; [discriminate|]. split; [discriminate|]. intros _. apply B. }
  destruct (C47_object_round_trip F f0 f1 ver build V _ W) as (g & S1 & L1). exists g, (local_registry name root 10). split; [exact S1|]. split; [exact L1|]. split; [reflexivity|]. intro E. injection E as E. now apply P.
Qed.
Print Assumptions C47_registry_priority_refuted.

(** a rotation given in radians comes back as one in degrees *)
Definition rotation {F} (axis : string) (v : obj F) (degrees : bool) : obj F := ORec axis [("v", v); ("degrees", OScal (SBool degrees))].
Theorem C47_radians_refuted F (f0 f1 : F) ver build axis v : has_char "/" ver = false -> In axis ["RotationX"; "RotationY"; "RotationZ"] -> wf build v -> v <> ONone ->
  exists g, save F f0 f1 ver (rotation axis v false) = Ok g /\ load F f0 f1 ver build g = Ok (rotation axis v true).
Proof.
  intros V I Wv Nn. assert (W : wf build (rotation axis v true)).
  { unfold rotation. apply (wf_fields_rec F build axis (rotation_kinds F)).
    - cbn in I. destruct I as [<-|[<-|[<-|[]]]]; cbn; tauto.
    - split; [reflexivity|]. split; [|split; [|split]].
      + intros n b w K. each_in K.
      + intros n b w K G0 _. each_in K. each_get G0. auto.
      + intros n K. each_in K. cbn. congruence.
      + intros n w K. each_in K. reflexivity.
    - cbn in I. destruct I as [<-|[<-|[<-|[]]]]; (split; [intros K; each_in K|split; [discriminate|split; [discriminate|intros K; each_in K]]]). }
  destruct (C47_object_round_trip F f0 f1 ver build V _ W) as (g & S1 & L1). exists g. split; [|exact L1]. rewrite <- S1. cbn in I. destruct I as [<-|[<-|[<-|[]]]]; reflexivity.
Qed.
Print Assumptions C47_radians_refuted.

(** an operation whose data type was set to something else than that of its parts, as Expr.float does for the default of a
    component parameter, is written but can never be loaded *)
Theorem C47_overridden_type_refuted F (f0 f1 : F) ver build cls kinds fs d e : has_char "/" ver = false -> In (cls, kinds) (classes F) -> In cls ["UnaryOp"; "BinaryOp"; "TrinaryOp"] ->
  wf_fields build kinds fs -> op_typed F cls fs d -> get "data_type" fs = Some (OScal (SStr (type_word e))) -> e <> d ->
  exists g, save F f0 f1 ver (ORec cls fs) = Ok g /\ load F f0 f1 ver build g = Raise.
Proof.
  intros V I Io W T D N. pose proof (agree_classes F f0 f1) as AC. rewrite Forall_forall in AC. destruct (AC _ I) as (sp & Sp & Ag). cbn [fst snd] in Sp, Ag.
  pose proof (wf_fields_good F f0 f1 ver V build kinds sp fs Ag W) as Gd.
  destruct (fields_round F f0 f1 ver build sp cls fs Gd) as (a & m & Out & _ & _ & _ & In_). cbn [save]. rewrite Sp. exists (G (header F ver cls :: a) m). split; [exact Out|].
  cbn [load]. rewrite (class_in_header F ver V). destruct (class_dispatch F cls kinds I) as (D1 & D2 & D3). rewrite D1, D2, D3, Sp, (check_header_ok F ver V).
  specialize (In_ [] []). rewrite !app_nil_r in In_. rewrite In_ by auto. cbn [rbind]. unfold construct. apply existsb_in in Io. rewrite Io, (op_typed_type F cls fs d T), (str_field_get F _ _ _ D), type_word_read.
  destruct (dtype_eqb d e) eqn:Q; [|reflexivity]. apply dtype_eqb_eq in Q. congruence.
Qed.
Print Assumptions C47_overridden_type_refuted.

(** integers that do not fit into 64 bits and texts with NUL cannot be saved *)
Theorem C47_unstorable_refuted F (f0 f1 : F) ver :
  (forall z, (z < - 2 ^ 63 \/ 2 ^ 64 <= z)%Z -> save F f0 f1 ver (OScal (SInt z)) = Raise) /\
  (forall t, has_char "000" t = true -> save F f0 f1 ver (OScal (SStr t)) = Raise).
Proof.
  split.
  - intros z Z. cbn [save storable]. destruct (andb _ _) eqn:E; [|reflexivity]. apply andb_true_iff in E as [A B]. apply Z.leb_le in A. apply Z.ltb_lt in B. lia.
  - intros t T. cbn [save storable]. now rewrite T.
Qed.
Print Assumptions C47_unstorable_refuted.

(** *** Equality of an object with one that has just been loaded
    dataclasses compare field by field; DataSource (common/metadata.py:5-32) has no __eq__ and compares by identity, so that it
    never equals a loaded one *)
Inductive equals_loaded {F} : obj F -> obj F -> Prop :=
| el_none : equals_loaded ONone ONone
| el_scal s : equals_loaded (OScal s) (OScal s)
| el_list l m : Forall2 equals_loaded l m -> equals_loaded (OList l) (OList m)
| el_tup l m : Forall2 equals_loaded l m -> equals_loaded (OTup l) (OTup m)
| el_rec cls fs gs : cls <> "DataSource" -> Forall2 (fun p q => fst p = fst q /\ equals_loaded (snd p) (snd q)) fs gs -> equals_loaded (ORec cls fs) (ORec cls gs).
(** no object with metadata equals what is loaded for it *)
Theorem C47_metadata_equality_refuted F (fs gs : list (string * obj F)) o : equals_loaded (ORec "DataSource" fs) o \/ (In ("source", ORec "DataSource" gs) fs /\ equals_loaded (ORec "MetaData" fs) o) -> False.
Proof.
  intros [H|[I H]]; [inversion H; subst; contradiction|]. inversion H as [| | | |cls a b N Ft]; subst. clear H N. induction Ft as [|p q a c [E H] Ft IH]; [destruct I|]. destruct I as [->|I]; [|auto]. cbn in H. inversion H. contradiction.
Qed.
Print Assumptions C47_metadata_equality_refuted.

(** a loaded instance is never in minimal mode *)
Theorem C47_minimal_mode_refuted F (f0 f1 : F) ver build derive known comps g y : load_inst F f0 f1 ver build derive known comps g = Ok y -> str_field "mode" (i_fs y) = Some "normal".
Proof.
  destruct g as [attrs ms|]; [|discriminate]. unfold load_inst. set (lm := loaded F f0 f1 ver build ms). cbv zeta. destruct (check_header F ver attrs "Instance"); [|discriminate].
  destruct (fields_in F (inst_spec F) attrs lm) as [fs| |] eqn:E; try discriminate. cbn [rbind].
  assert (M : str_field "mode" fs = Some "normal").
  { unfold fields_in in E. cbn [s_opt s_req inst_spec collect rbind] in E. unfold optional in E. cbn [fst] in E.
    repeat match type of E with context [get ?n lm] => destruct (get n lm) as [[?| |]|]; cbn [rbind app] in E; try discriminate E end; injection E as <-; reflexivity. }
  destruct (get "type" attrs) as [[ty| | |]|]; try discriminate. destruct (get ty comps); [|discriminate]. destruct (get "at_vector" lm) as [[v| |]|]; try discriminate. destruct (get "rotate_angles" lm) as [[w| |]|]; try discriminate.
  destruct (find_ref _ _ _); try discriminate. cbn [rbind]. destruct (find_ref _ _ _); try discriminate. cbn [rbind]. intro H. injection H as <-. unfold post_init. cbn [i_fs]. rewrite M. cbn [String.eqb Ascii.eqb Bool.eqb].
  assert (St : forall v, str_field "mode" (set_field F "orientation" v fs) = Some "normal").
  { intro u. unfold str_field in *. assert (Gm : get "mode" (set_field F "orientation" u fs) = get "mode" fs).
    { unfold set_field. clear. induction fs as [|[n x] t IH]; [reflexivity|]. cbn [map fst]. destruct (n =?s "orientation") eqn:En.
      - apply String.eqb_eq in En. subst n. rewrite !get_cons. exact IH.
      - rewrite !get_cons. destruct (n =?s "mode"); auto. }
    now rewrite Gm. }
  destruct (get "orientation" fs) as [[| | | |]|]; cbn [i_fs]; auto.
Qed.
Print Assumptions C47_minimal_mode_refuted.

(** * Concrete instruments *)
Definition yes : string -> list (string * obj nat) -> res bool := fun _ _ => Ok true.
Definition text (t : string) : obj nat := OScal (SStr t).
Definition tup0 : obj nat := OTup [].
Definition value (d : string) (v : obj nat) : obj nat := ORec "Value" [("object_type", text "value"); ("data_type", text d); ("shape_type", text "scalar"); ("value", v)].
Definition expr (o : obj nat) : obj nat := ORec "Expr" [("expr", OList [o])].
Definition negative (d : string) (o : obj nat) : obj nat := ORec "UnaryOp" [("op", text "-"); ("style", text "C"); ("data_type", text d); ("value", OList [o])].
Definition number (n : nat) : obj nat := expr (value "float" (OScal (SFloat n))).
Definition comp (name cat : string) (pars : list (obj nat)) : obj nat :=
  ORec "Comp" ([("name", text name); ("category", text cat); ("dependency", ONone); ("acc", OScal (SBool true))] ++
    map (fun n => (n, if n =?s "setting" then OTup pars else tup0)) ["define"; "setting"; "output"; "metadata"; "share"; "user"; "declare"; "initialize"; "trace"; "save"; "final"; "display"]).
Definition parameter (name : string) (e : obj nat) : obj nat := ORec "ComponentParameter" [("name", text name); ("value", e)].
Definition vector (cls : string) (n : nat) : obj nat := ORec cls [("x", number 0); ("y", number 0); ("z", number n)].
Definition orient : obj nat := ORec "Orient" [("_degrees", OScal (SBool true)); ("_position", ORec "Parts" [("_stack", tup0)]); ("_rotation", ORec "Parts" [("_stack", tup0)])].
Definition instance (name : string) (grp : obj nat) (o mode ty : obj nat) (n : nat) (ar rr : option ref) : inst nat :=
  mkInst [("name", text name); ("removable", OScal (SBool false)); ("cpu", OScal (SBool false)); ("group", grp); ("orientation", o); ("parameters", OTup [parameter "l" (number n)]); ("split", ONone); ("when", ONone);
    ("extend", tup0); ("jump", tup0); ("metadata", tup0); ("mode", mode)] ty (vector "Vector" n) ar (vector "Angles" 0) rr.
Definition instrument (is : list (inst nat)) (gs : list (string * group nat)) : instr nat :=
  mkInstr ([("name", text "test"); ("source", ONone)] ++ map (fun n => (n, tup0)) ["parameters"; "metadata"; "included"; "user"; "declare"; "initialize"; "save"; "final"; "flags"; "registries"]) is gs.
Definition arm : obj nat := comp "Arm" "optics" [parameter "l" (expr (negative "int" (value "int" (OScal (SInt 1)))))].
Definition slit : obj nat := comp "Slit" "optics" [].
Definition group_of (name : string) (i : Z) (ids : list Z) (ms : list ref) : group nat := mkGroup [("name", text name); ("index", OScal (SInt i)); ("ids", OList (map (fun z => OScal (SInt z)) ids))] ms.
Definition three : list (inst nat) := [
  instance "a" ONone orient (text "normal") arm 1 None None;
  instance "b" (text "z") orient (text "normal") slit 2 (Some (0, "a")) (Some (0, "a"));
  instance "c" (text "g") orient (text "normal") arm 3 (Some (1, "b")) (Some (0, "a"))].
Definition good_one : instr nat := instrument three [("z", group_of "z" 0 [1%Z] [(1, "b")]); ("g", group_of "g" 1 [2%Z] [(2, "c")])].
Definition same_component (a b : obj nat) : bool := match get "name" (rec_fields a), get "name" (rec_fields b) with Some (OScal (SStr m)), Some (OScal (SStr n)) => m =?s n | _, _ => false end.

Ltac wf_case := unfold tup0;
  match goal with
  | |- wf _ (OScal _) => apply wf_scal; cbn; try reflexivity; try lia; try exact I
  | |- wf _ (OList _) => apply wf_list; let K := fresh in intros ? K; cbn in K; repeat (destruct K as [<-|K]); try (destruct K)
  | |- wf _ (OTup _) => apply wf_tup; let K := fresh in intros ? K; cbn in K; repeat (destruct K as [<-|K]); try (destruct K)
  end.
Ltac wf_fields_case :=
  split; [reflexivity|]; split; [|split; [|split]];
  [ let K := fresh in let V := fresh in intros ? ? ? K V; each_in K; each_get V; first [left; split; reflexivity|right; eexists; split; [reflexivity|cbn; first [reflexivity|lia|exact I]]]
  | let K := fresh in let V := fresh in let N := fresh in intros ? ? ? K V N; each_in K; each_get V; try (exfalso; apply N; reflexivity)
  | let K := fresh in intros ? K; each_in K; cbn; discriminate
  | let K := fresh in intros ? ? K; each_in K; reflexivity ].
Ltac find_class := cbn; repeat first [left; reflexivity|right].
Ltac sound_plain := split; [let K := fresh in intro K; each_in K|split; [discriminate|split; [discriminate|let K := fresh in intro K; each_in K]]].
Lemma wf_value d v : In d [DFloat; DInt; DStr; DUndef] -> v = ONone \/ wf yes v -> wf yes (value (type_word d) v).
Proof.
  intros _ H. eapply wf_fields_rec; [find_class| |].
  - split; [reflexivity|]. split; [|split; [|split]].
    + intros n b w K V. each_in K; each_get V; right; eexists; (split; [reflexivity|]); destruct d; reflexivity.
    + intros n b w K V N. each_in K; each_get V. destruct H as [->|H]; [contradiction|auto].
    + intros n K. each_in K.
    + intros n w K. each_in K.
  - split; [intro K; each_in K|]. split; [|split; [discriminate|intro K; each_in K]]. intros _. split; [exists "value"; cbn; auto|]. split; [exists d; reflexivity|exists "scalar"; cbn; auto].
Qed.
Lemma wf_expr o : wf yes o -> wf yes (expr o).
Proof. intro H. eapply wf_fields_rec; [find_class|wf_fields_case; wf_case; auto|sound_plain]. Qed.
Lemma wf_number n : wf yes (number n). Proof. apply wf_expr. apply (wf_value DFloat); [cbn; auto|right; wf_case]. Qed.
Lemma wf_negative_int z : (- 2 ^ 63 <= z < 2 ^ 64)%Z -> wf yes (negative "int" (value "int" (OScal (SInt z)))).
Proof.
  intro Z. assert (Wv : wf yes (value "int" (OScal (SInt z)))) by (apply (wf_value DInt); [cbn; auto|right; apply wf_scal; exact Z]).
  eapply wf_fields_rec; [find_class|wf_fields_case; wf_case; exact Wv|].
  split; [|split; [discriminate|split; [discriminate|intro K; each_in K]]]. intros _. exists DInt. split; [|reflexivity].
  eapply ot_unary; [reflexivity|]. split; [discriminate|]. intros x [<-|[]]. eapply ht; [cbn; tauto|reflexivity].
Qed.
Lemma wf_parameter n e : has_char "000" n = false -> wf yes e -> e <> ONone -> wf yes (parameter n e).
Proof.
  intros Hn H N. eapply wf_fields_rec; [find_class| |sound_plain]. split; [reflexivity|]. split; [|split; [|split]].
  - intros m b w K V. each_in K; each_get V; right; eexists; (split; [reflexivity|]); exact Hn.
  - intros m b w K V M. each_in K; each_get V; auto.
  - intros m K. each_in K. cbn. congruence.
  - intros m w K. each_in K.
Qed.
Lemma wf_comp name cat pars : has_char "000" name = false -> has_char "000" cat = false -> (forall x, In x pars -> wf yes x) -> wf yes (comp name cat pars).
Proof.
  intros Hn Hc H. eapply wf_fields_rec; [find_class| |sound_plain]. split; [reflexivity|]. split; [|split; [|split]].
  - intros m b w K V. each_in K; each_get V; first [left; split; reflexivity|right; eexists; split; [reflexivity|first [exact Hn|exact Hc|exact I]]].
  - intros m b w K V M. each_in K; each_get V; apply wf_tup; auto; intros ? [].
  - intros m K. each_in K; cbn; discriminate.
  - intros m w K. each_in K.
Qed.
Lemma wf_vector cls n : In cls ["Vector"; "Angles"] -> wf yes (vector cls n).
Proof. intros [<-|[<-|[]]]; (eapply wf_fields_rec; [find_class|wf_fields_case; apply wf_number|sound_plain]). Qed.
Lemma wf_parts : wf yes (ORec "Parts" [("_stack", tup0)]).
Proof. eapply wf_fields_rec; [find_class|wf_fields_case; wf_case|sound_plain]. Qed.
Lemma wf_orient : wf yes orient.
Proof. eapply wf_fields_rec; [find_class|wf_fields_case; apply wf_parts|sound_plain]. Qed.
Lemma wf_arm : wf yes arm.
Proof. apply wf_comp; auto. intros x [<-|[]]. apply wf_parameter; [auto|apply wf_expr, wf_negative_int; lia|discriminate]. Qed.
Lemma wf_slit : wf yes slit. Proof. apply wf_comp; auto. intros x []. Qed.
Lemma wf_instance name grp ty n ar rr l i : has_char "000" name = false -> grp = ONone \/ (exists t, grp = text t /\ has_char "000" t = false) -> ty = arm \/ ty = slit ->
  (forall r, ar = Some r \/ rr = Some r -> fst r < i /\ named l r) -> wf_inst yes l i (instance name grp orient (text "normal") ty n ar rr).
Proof.
  intros Hn Hg Ht Hr. constructor; cbn [instance i_fs i_type i_at i_rot i_atref i_rotref].
  - split; [reflexivity|]. split; [|split; [|split]].
    + intros m b w K V. each_in K; each_get V; try (right; eexists; split; [reflexivity|first [exact Hn|exact I]]). destruct Hg as [->|(t & -> & Hg)]; [left; auto|right; eexists; split; [reflexivity|exact Hg]].
    + intros m b w K V M. each_in K; each_get V; try congruence; try (apply wf_orient); apply wf_tup; intros x X; try (destruct X; fail). destruct X as [<-|[]]. apply wf_parameter; [auto|apply wf_number|discriminate].
    + intros m K. each_in K; cbn; discriminate.
    + intros m w K. each_in K. reflexivity.
  - now exists name.
  - destruct Ht as [->| ->]; (split; [first [apply wf_arm|apply wf_slit]|eexists; eexists; split; reflexivity]).
  - apply wf_vector. cbn; auto.
  - apply wf_vector. cbn; auto.
  - exact Hr.
Qed.
Lemma wf_group_of l name i ids ms : has_char "000" name = false -> has_char "/" name = false -> name <> "" -> name <> "." -> (- 2 ^ 63 <= i < 2 ^ 64)%Z -> (forall z, In z ids -> (- 2 ^ 63 <= z < 2 ^ 64)%Z) ->
  (forall r, In r ms -> named l r) -> wf_group yes l name (group_of name i ids ms).
Proof.
  intros A B C D E H M. constructor; cbn [group_of g_fs g_members]; [|auto|auto]. split; [reflexivity|]. split; [|split; [|split]].
  - intros m b w K V. each_in K; each_get V; right; eexists; (split; [reflexivity|assumption]).
  - intros m b w K V N. each_in K; each_get V. apply wf_list. intros x X. apply in_map_iff in X as (z & <- & Z). apply wf_scal. now apply H.
  - intros m K. each_in K; cbn; discriminate.
  - intros m w K. each_in K.
Qed.
Ltac named_in := eexists; split; reflexivity.
Example C47_nonvacuous : wf_instr yes good_one /\ exists g gs, save_instr nat 0 1 "0.10.2" same_component good_one = Ok g /\
  load_instr nat 0 1 "0.10.2" yes (fun _ => ONone) g = Ok (mkInstr (n_fs good_one) three gs) /\ map fst gs = ["g"; "z"].
Proof.
  split; [|eexists; eexists; split; [vm_compute; reflexivity|split; vm_compute; reflexivity]].
  constructor.
  - wf_fields_case; wf_case.
  - intros i y H. assert (A : forall r : ref, None = Some r \/ None = Some r -> False) by (intros r [?|?]; discriminate).
    destruct i as [|[|[|i]]]; cbn in H; try (destruct i; discriminate); injection H as <-; apply wf_instance; auto; try (right; eexists; split; reflexivity).
    + intros r R. destruct (A r R).
    + intros r [R|R]; injection R as <-; (split; [cbn; lia|named_in]).
    + intros r [R|R]; injection R as <-; (split; [cbn; lia|named_in]).
  - intros i j y z H1 H2 E. destruct i as [|[|[|i]]], j as [|[|[|j]]]; cbn in H1, H2; try (destruct i; discriminate); try (destruct j; discriminate); auto; injection H1 as <-; injection H2 as <-; discriminate.
  - intros y z Y Z E. cbn in Y, Z. destruct Y as [<-|[<-|[<-|[]]]], Z as [<-|[<-|[<-|[]]]]; try reflexivity; discriminate.
  - cbn. repeat constructor; cbn; intuition discriminate.
  - intros k y [H|[H|[]]]; injection H as <- <-; apply wf_group_of; try reflexivity; try discriminate; try lia; try (intros z [<-|[]]; lia); intros r [<-|[]]; named_in.
Qed.
(** the hypotheses of the refutations are met: a component default [-1] whose type was set to float *)
Example C47_overridden_type_nonvacuous : exists g, save nat 0 1 "1" (negative "float" (value "int" (OScal (SInt 1)))) = Ok g /\ load nat 0 1 "1" yes g = Raise.
Proof. eexists. split; vm_compute; reflexivity. Qed.

(** an instance in minimal mode has no orientation; it comes back in normal mode, with one *)
Example C47_minimal_mode_witness : let x := instance "a" ONone ONone (text "minimal") arm 1 None None in
  exists g y, save_instr nat 0 1 "1" same_component (instrument [x] []) = Ok g /\ load_instr nat 0 1 "1" yes (fun _ => orient) g = Ok y /\ n_insts y = [instance "a" ONone orient (text "normal") arm 1 None None] /\ n_insts y <> [x].
Proof. eexists. eexists. split; [vm_compute; reflexivity|]. split; [vm_compute; reflexivity|]. split; [vm_compute; reflexivity|]. intro H. vm_compute in H. discriminate. Qed.

(** two different components of one name: both instances come back with the second *)
Theorem C47_same_name_components_refuted : exists x y g, wf yes (comp "Arm" "optics" []) /\ wf yes (comp "Arm" "contrib" []) /\
  map i_type (n_insts x) = [comp "Arm" "optics" []; comp "Arm" "contrib" []] /\
  save_instr nat 0 1 "1" (fun a b => match get "category" (rec_fields a), get "category" (rec_fields b) with Some (OScal (SStr m)), Some (OScal (SStr n)) => same_component a b && (m =?s n) | _, _ => false end) x = Ok g /\
  load_instr nat 0 1 "1" yes (fun _ => orient) g = Ok y /\ map i_type (n_insts y) = [comp "Arm" "contrib" []; comp "Arm" "contrib" []].
Proof.
  exists (instrument [instance "a" ONone orient (text "normal") (comp "Arm" "optics" []) 1 None None; instance "b" ONone orient (text "normal") (comp "Arm" "contrib" []) 1 None None] []). eexists. eexists.
  split; [apply wf_comp; auto; intros x []|]. split; [apply wf_comp; auto; intros x []|]. split; [reflexivity|]. split; [vm_compute; reflexivity|]. split; vm_compute; reflexivity.
Qed.
Print Assumptions C47_same_name_components_refuted.

(** a reference to an instance outside the instrument becomes one to an instance of that name inside, or the file cannot be loaded *)
Theorem C47_foreign_reference_refuted :
  (exists x y g, save_instr nat 0 1 "1" same_component x = Ok g /\ load_instr nat 0 1 "1" yes (fun _ => orient) g = Ok y /\
     map i_atref (n_insts x) = [None; Some (7, "a")] /\ map i_atref (n_insts y) = [None; Some (0, "a")]) /\
  (exists x g, save_instr nat 0 1 "1" same_component x = Ok g /\ load_instr nat 0 1 "1" yes (fun _ => orient) g = Raise /\ map i_atref (n_insts x) = [None; Some (7, "other")]).
Proof.
  split.
  - exists (instrument [instance "a" ONone orient (text "normal") arm 1 None None; instance "b" ONone orient (text "normal") arm 1 (Some (7, "a")) None] []). eexists. eexists.
    split; [vm_compute; reflexivity|]. split; [vm_compute; reflexivity|]. split; vm_compute; reflexivity.
  - exists (instrument [instance "a" ONone orient (text "normal") arm 1 None None; instance "b" ONone orient (text "normal") arm 1 (Some (7, "other")) None] []). eexists.
    split; [vm_compute; reflexivity|]. split; vm_compute; reflexivity.
Qed.
Print Assumptions C47_foreign_reference_refuted.

Lemma other_version_header F v w cls c a : has_char "/" v = false -> v <> w -> check_header F w (header F v cls :: a) c = false.
Proof. intros P N. unfold check_header. rewrite (class_in_header F v P). apply String.eqb_neq in N. now rewrite N. Qed.
Lemma fields_out_header F v sp cls fs s g : fields_out F v sp cls fs s = Ok g -> exists a m, g = G (header F v cls :: a) m.
Proof.
  unfold fields_out. destruct (collect _ (s_attrs sp)) as [a| |]; [|discriminate|discriminate]. cbn [rbind]. destruct (collect _ _) as [m| |]; [|discriminate|discriminate].
  cbn [rbind]. intro E. injection E as <-. eauto.
Qed.
Lemma sequence_header F v cls l g : sequence F v cls l = Ok g -> exists a m, g = G (header F v cls :: a) m.
Proof. unfold sequence. destruct (entries _ _ _ _ _) as [m| |]; [|discriminate|discriminate]. cbn [rbind]. intro E. injection E as <-. eauto. Qed.
Lemma saved_header F f0 f1 v o g : save F f0 f1 v o = Ok g -> (exists a m, g = G a m /\ class_in F a = None) \/
  exists cls a m, g = G (header F v cls :: a) m /\ (In cls ["str"; "int"; "float"; "bool"; "list"; "tuple"] \/ spec_of F f0 f1 cls <> None).
Proof.
  destruct o as [|s|l|l|cls fs]; cbn [save]; intro S.
  - injection S as <-. left. exists [], []. split; reflexivity.
  - destruct (storable s); [|discriminate]. injection S as <-. right. exists (class_of s), [], [("entry", D s)]. split; [reflexivity|]. left. destruct s; cbn; tauto.
  - apply sequence_header in S as (a & m & ->). right. exists "list", a, m. split; [reflexivity|]. left. cbn. tauto.
  - apply sequence_header in S as (a & m & ->). right. exists "tuple", a, m. split; [reflexivity|]. left. cbn. tauto.
  - destruct (spec_of F f0 f1 cls) as [sp|] eqn:E.
    + apply fields_out_header in S as (a & m & ->). right. exists cls, a, m. split; [reflexivity|]. right. now rewrite E.
    + injection S as <-. left. exists [], []. split; reflexivity.
Qed.

(** nothing that another version of the package wrote is loaded: neither an object nor an instance, a group or an instrument,
    whatever it holds and in whatever context it is read *)
Theorem C47_other_version_refused F (f0 f1 : F) v w build derive comp_eq : has_char "/" v = false -> v <> w ->
  (forall o g, save F f0 f1 v o = Ok g -> load F f0 f1 w build g = Raise) /\
  (forall y g known comps, save_inst F f0 f1 v y = Ok g -> load_inst F f0 f1 w build derive known comps g = Raise) /\
  (forall y g known, save_group F f0 f1 v y = Ok g -> load_group F f0 f1 w build known g = Raise) /\
  (forall x g, save_instr F f0 f1 v comp_eq x = Ok g -> load_instr F f0 f1 w build derive g = Raise).
Proof.
  intros P N. split; [|split; [|split]].
  - intros o g S. apply saved_header in S as [(a & m & -> & E)|(cls & a & m & -> & K)]; cbn [load].
    + now rewrite E.
    + rewrite (class_in_header F v P), !(other_version_header F v w) by auto.
      destruct (existsb _ scalar_classes) eqn:E1; [reflexivity|]. destruct (cls =?s "list") eqn:E2; [reflexivity|]. destruct (cls =?s "tuple") eqn:E3; [reflexivity|].
      destruct (spec_of F f0 f1 cls) eqn:E4; [reflexivity|]. destruct K as [K|K]; [|now destruct K].
      exfalso. cbn in K. repeat (destruct K as [<-|K]; [discriminate|]). destruct K.
  - intros y g known comps S. unfold save_inst in S. destruct (fields_out _ _ _ _ _ _) as [[a m|]| |] eqn:E; try discriminate. apply fields_out_header in E as (a' & m' & E). injection E as -> ->.
    destruct (str_field _ _); [|discriminate]. repeat match type of S with rbind ?r _ = _ => destruct r; cbn [rbind] in S; try discriminate end. injection S as <-.
    unfold load_inst. cbn [app]. now rewrite (other_version_header F v w).
  - intros y g known S. unfold save_group in S. destruct (fields_out _ _ _ _ _ _) as [[a m|]| |] eqn:E; try discriminate. apply fields_out_header in E as (a' & m' & E). injection E as -> ->.
    repeat match type of S with rbind ?r _ = _ => destruct r; cbn [rbind] in S; try discriminate end. try injection S as <-.
    unfold load_group. cbn [app]. now rewrite (other_version_header F v w).
  - intros x g S. unfold save_instr in S. destruct (fields_out _ _ _ _ _ _) as [[a m|]| |] eqn:E; try discriminate. apply fields_out_header in E as (a' & m' & E). injection E as -> ->.
    repeat match type of S with rbind ?r _ = _ => destruct r; cbn [rbind] in S; try discriminate end. injection S as <-.
    unfold load_instr. now rewrite (other_version_header F v w).
Qed.
Print Assumptions C47_other_version_refused.
Example C47_other_version_example : exists g, save_instr nat 0 1 "0.10.2" same_component good_one = Ok g /\
  load_instr nat 0 1 "0.10.3" yes (fun _ => ONone) g = Raise /\ exists y, load_instr nat 0 1 "0.10.2" yes (fun _ => ONone) g = Ok y.
Proof. eexists. split; [vm_compute; reflexivity|]. split; [vm_compute; reflexivity|]. eexists. vm_compute. reflexivity. Qed.

(** a group that says it holds another class is not taken for an instance, a group of instances or an instrument *)
Theorem C47_other_class_refused F (f0 f1 : F) v build derive known comps cls a m : has_char "/" v = false ->
  (cls <> "Instance" -> load_inst F f0 f1 v build derive known comps (G (header F v cls :: a) m) = Raise) /\
  (cls <> "Group" -> load_group F f0 f1 v build known (G (header F v cls :: a) m) = Raise) /\
  (cls <> "Instr" -> load_instr F f0 f1 v build derive (G (header F v cls :: a) m) = Raise).
Proof.
  intro P. assert (C : forall c, cls <> c -> check_header F v (header F v cls :: a) c = false).
  { intros c N. unfold check_header. rewrite (class_in_header F v P). apply String.eqb_neq in N. rewrite N. apply andb_false_r. }
  split; [|split]; intro N; [unfold load_inst|unfold load_group|unfold load_instr]; now rewrite (C _ N).
Qed.
Print Assumptions C47_other_class_refused.
Example C47_other_class_example : exists g, save nat 0 1 "1" arm = Ok g /\ load_instr nat 0 1 "1" yes (fun _ => ONone) g = Raise.
Proof. eexists. split; vm_compute; reflexivity. Qed.
