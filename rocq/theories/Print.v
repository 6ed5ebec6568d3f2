(** Text of expressions: printing by common/expression.py and reading by C and by the grammar of instrument files.

    Printing: expression.py:187-192 (_comb), 319-323, 413-447, 556-563 with style C, 705-725 (Value.__str__ and the format
    specifications that prefix parameter names), 1027-1032.  Reading: a precedence parser over a table of operators, once with the
    table of C (ISO C 6.5) and once with that of /repo/src/grammar/McCommon.g4:39-68.

    Simplifications: text is a list of tokens; white space is dropped, and the one place where two printed tokens merge for want of
    white space (a sign before a sign) is kept.  Numbers are exact, a printed number reads back as the same number.  Member access
    a.b and a->b is read for identifiers a and b only. *)
From Coq Require Import List String Ascii Bool QArith Qcanon ZArith Arith Lia.
From Verif Require Import PyStr Expr ExprSem.
Import ListNotations.
Local Open Scope string_scope.
Local Open Scope list_scope.
Local Open Scope nat_scope.

(** tokens of C and of instrument files, c99.g4:107-154 *)
Inductive tok := TNum (q : Qc) | TStr (s : string) | TId (s : string) | TOp (s : string)
  | TL | TR | TLB | TRB | TDot | TArrow | TComma | TQ | TColon.

(** * Printing *)
(** expression.py:424-446; the C style of // is a single slash (443-445) *)
Definition sym (op : binop) : string :=
  match op with
  | BAdd => "+" | BSub => "-" | BMul => "*" | BDiv => "/" | BFloor => "/" | BPow => "^" | BMod => "%" | BShl => "<<" | BShr => ">>"
  | BLt => "<" | BGt => ">" | BLe => "<=" | BGe => ">=" | BNeq => "!=" | BEq => "==" | BOr => "||" | BAnd => "&&"
  | BCall | BStruct | BPtr | BItem => "" | BNamed s => s
  end.
(** a sign directly before a text: two equal signs become one token, of C and of the lexer of instrument files (c99.g4:143-144).
    [glue] is true wherever the text is that of the code; with false the signs stay apart, which is of use in proofs only. *)
Definition sign (glue : bool) (s : string) (ts : list tok) : list tok :=
  if negb glue then TOp s :: ts else
  match ts with
  | TOp t :: r => if t =?s s then TOp (s ++ s) :: r else if t =?s (s ++ s) then TOp (s ++ s) :: TOp s :: r else TOp s :: ts
  | _ => TOp s :: ts
  end.
(** the tokens of a number; a negative one has a sign *)
Definition num_toks (q : Qc) : list tok := if Qc_ltb q 0 then [TOp "-"; TNum (- q)] else [TNum q].
(** tokens with commas in between *)
Fixpoint joined (l : list (list tok)) : list tok := match l with [] => [] | [x] => x | x :: t => x ++ TComma :: joined t end.
Section Print.
  (** how a name is written: as it is, or with a prefix if it is an instrument parameter (expression.py:705-708, 716-722) *)
  Variable nm : otype -> string -> string.
  Variable glue : bool.
  (** the text of a node as tokens, with the lines given above *)
  Fixpoint print (n : node) : list tok :=
    match n with
    | NRaw q => num_toks q
    | NVal (PNum q) _ _ => num_toks q
    | NVal (PStr s) _ o => if ot_is_id o then [TId (nm o s)] else match o with OFunc => [TId s] | _ => [TStr s] end
    | NBox _ l => joined (map print l)
    | NExpr l => joined (map print l)
    | NUn op _ a =>
        let v := joined (map print a) in
        match op with
        | UGroup => TL :: v ++ [TR]
        | UNot => TOp "!" :: v
        | UNeg => sign glue "-" v
        | UPos => sign glue "+" v
        | UAbs => TId "abs" :: TL :: v ++ [TR]
        | URound => TId "round" :: TL :: v ++ [TR]
        | UNamed s => TId s :: TL :: v ++ [TR]
        end
    | NBin op _ l r =>
        let x := joined (map print l) in let y := joined (map print r) in
        match op with
        | BCall => x ++ TL :: y ++ [TR]
        | BStruct => x ++ TDot :: y
        | BPtr => x ++ TArrow :: y
        | BItem => x ++ TLB :: y ++ [TRB]
        | BAdd | BSub | BMod | BShl | BShr => TL :: x ++ TOp (sym op) :: y ++ [TR]
        | BNamed s => TId s :: TL :: x ++ TComma :: y ++ [TR]
        | _ => x ++ TOp (sym op) :: y
        end
    | NTri _ f s t => joined (map print f) ++ TQ :: joined (map print s) ++ TColon :: joined (map print t)
    end.
End Print.
(** Value.__str__ *)
Definition plain (o : otype) (s : string) : string := s.
(** Value.special_str *)
Definition prefixed (p : string) (o : otype) (s : string) : string := match o with OParam => (p ++ s)%string | _ => s end.

(** * Reading *)
Record table := mkTable {
  (** binary operator: meaning, level, least level of the right operand *)
  binfo : string -> option (binop * nat * nat);
  (** sign or negation: meaning, least level of the operand *)
  pinfo : string -> option (unop * nat);
  (** conditional: level, least level of the last operand *)
  tlevel : nat; tlast : nat }.
(** an identifier *)
Definition leaf (s : string) := NVal (PStr s) DUndef OId.
Section Read.
  Variable tb : table.
  Fixpoint pexpr (fuel mn : nat) (ts : list tok) {struct fuel} : option (node * list tok) :=
    match fuel with
    | 0 => None
    | S f =>
      match ts with
      | TNum q :: r => if Qc_ltb q 0 then None (* literals have no sign *) else ploop f mn (NVal (PNum q) DUndef OValue) r
      | TStr s :: r => ploop f mn (NVal (PStr s) DStr OValue) r
      | TId s :: TL :: r => match pargs f r with
                            | Some (args, r') => ploop f mn (NBin BCall DUndef [NVal (PStr s) DUndef OFunc] args) r' | None => None end
      | TId s :: TLB :: r => match pexpr f 0 r with
                             | Some (e, TRB :: r') => ploop f mn (NBin BItem DUndef [leaf s] [e]) r' | _ => None end
      | TId s :: TDot :: TId t :: r => ploop f mn (NBin BStruct DUndef [leaf s] [leaf t]) r
      | TId s :: TArrow :: TId t :: r => ploop f mn (NBin BPtr DUndef [leaf s] [leaf t]) r
      | TId s :: r => ploop f mn (leaf s) r
      | TL :: r => match pexpr f 0 r with Some (e, TR :: r') => ploop f mn (NUn UGroup DUndef [e]) r' | _ => None end
      | TOp s :: r => match pinfo tb s with
                      | Some (op, pm) => match pexpr f pm r with Some (e, r') => ploop f mn (NUn op DUndef [e]) r' | None => None end
                      | None => None end
      | _ => None
      end
    end
  with ploop (fuel mn : nat) (lhs : node) (ts : list tok) {struct fuel} : option (node * list tok) :=
    match fuel with
    | 0 => None
    | S f =>
      match ts with
      | TOp s :: r => match binfo tb s with
                      | Some (op, p, rm) => if mn <=? p then match pexpr f rm r with Some (e, r') => ploop f mn (NBin op DUndef [lhs] [e]) r' | None => None end
                                            else Some (lhs, ts)
                      | None => Some (lhs, ts) end
      | TQ :: r => if mn <=? tlevel tb then
                     match pexpr f 0 r with
                     | Some (x, TColon :: r') => match pexpr f (tlast tb) r' with Some (y, r'') => ploop f mn (NTri DUndef [lhs] [x] [y]) r'' | None => None end
                     | _ => None end
                   else Some (lhs, ts)
      | _ => Some (lhs, ts)
      end
    end
  with pargs (fuel : nat) (ts : list tok) {struct fuel} : option (list node * list tok) :=
    match fuel with
    | 0 => None
    | S f => match pexpr f 0 ts with
             | Some (e, TComma :: r) => match pargs f r with Some (es, r') => Some (e :: es, r') | None => None end
             | Some (e, TR :: r) => Some ([e], r)
             | _ => None end
    end.
  (** the whole text is one expression *)
  Definition reads (ts : list tok) (n : node) : Prop := exists k, forall f, k <= f -> pexpr f 0 ts = Some (n, []).
End Read.

(** d.get(k) *)
Definition look {A} (l : list (string * A)) (s : string) : option A := option_map snd (find (fun p => fst p =?s s) l).
(** ISO C 6.5.3-6.5.15; ^ is the exclusive or of integers *)
Definition c_table : table := {|
  binfo := look [("*", (BMul, 13, 14)); ("/", (BDiv, 13, 14)); ("%", (BMod, 13, 14)); ("+", (BAdd, 12, 13)); ("-", (BSub, 12, 13));
                 ("<<", (BShl, 11, 12)); (">>", (BShr, 11, 12)); ("<", (BLt, 10, 11)); (">", (BGt, 10, 11)); ("<=", (BLe, 10, 11)); (">=", (BGe, 10, 11));
                 ("==", (BEq, 9, 10)); ("!=", (BNeq, 9, 10)); ("^", (BNamed "xor", 7, 8)); ("&&", (BAnd, 5, 6)); ("||", (BOr, 4, 5))];
  pinfo := look [("-", (UNeg, 14)); ("+", (UPos, 14)); ("!", (UNot, 14))];
  tlevel := 3; tlast := 3 |}.
(** McCommon.g4:39-68: an earlier alternative binds tighter, alternatives are left associative unless marked; a prefix operator reads
    its operand at its own level *)
Definition mc_table : table := {|
  binfo := look [("^", (BPow, 17, 17)); ("*", (BMul, 16, 17)); ("/", (BDiv, 16, 17)); ("+", (BAdd, 15, 16)); ("-", (BSub, 15, 16));
                 ("%", (BMod, 14, 15)); (">>", (BShr, 13, 14)); ("<<", (BShl, 12, 13)); ("!=", (BNeq, 11, 12)); ("==", (BEq, 10, 11));
                 ("<=", (BLe, 9, 10)); (">=", (BGe, 8, 9)); ("<", (BLt, 7, 8)); (">", (BGt, 6, 7)); ("&&", (BAnd, 4, 5)); ("||", (BOr, 4, 5))];
  pinfo := look [("-", (UNeg, 18)); ("+", (UPos, 18)); ("!", (UNot, 5))];
  tlevel := 3; tlast := 4 |}.

(** * Which trees print with enough brackets *)
Definition top := 100.
(** the sign of a unary operation *)
Definition usym (op : unop) : string := match op with UNeg => "-" | UPos => "+" | UNot => "!" | _ => "" end.
Section Levels.
  Variable tb : table.
  (** the binary operations that are printed with brackets *)
  Definition bracketing (op : binop) : bool := match op with BAdd | BSub | BMod | BShl | BShr => true | _ => false end.
  (** the least level of the operand of a prefix *)
  Definition prefix_level (s : string) : nat := match pinfo tb s with Some (_, p) => p | None => 0 end.
  (** the level at which the printed text can be read as an operand; texts that start with a sign can be read anywhere *)
  Fixpoint plevel (n : node) : nat :=
    match n with
    | NRaw _ | NVal _ _ _ | NUn _ _ _ => top
    | NBox _ [x] => plevel x
    | NExpr [x] => plevel x
    | NBin op _ _ _ => if bracketing op then top else match op with
        | BCall | BStruct | BPtr | BItem | BNamed _ => top
        | _ => match binfo tb (sym op) with Some (_, p, _) => p | None => 0 end end
    | NTri _ _ _ _ => tlevel tb
    | _ => 0
    end.
  (** an operator of at least this level that follows the text is taken into it *)
  Fixpoint plast (n : node) : nat :=
    match n with
    | NRaw q => if Qc_ltb q 0 then prefix_level "-" else top
    | NVal (PNum q) _ _ => if Qc_ltb q 0 then prefix_level "-" else top
    | NVal (PStr _) _ _ => top
    | NBox _ [x] => plast x
    | NExpr [x] => plast x
    | NUn op _ a => match op, a with
        | (UNeg | UPos | UNot), [x] => Nat.min (prefix_level (usym op)) (plast x)
        | _, _ => top end
    | NBin op _ _ r => if bracketing op then top else match op with
        | BCall | BStruct | BPtr | BItem | BNamed _ => top
        | _ => match binfo tb (sym op), r with Some (_, _, q), [y] => Nat.min q (plast y) | _, _ => 0 end end
    | NTri _ _ _ [z] => Nat.min (tlast tb) (plast z)
    | _ => 0
    end.
  (** proof helper: the text starts with a sign that merges with the one before *)
  Definition starts (s : string) (ts : list tok) : Prop := match ts with TOp t :: _ => t = s \/ t = (s ++ s)%string | _ => False end.
  (** [tight nm glue n]: every operand of an operator that is printed without brackets binds tight enough *)
  Fixpoint tight (nm : otype -> string -> string) (glue : bool) (n : node) : Prop :=
    let tight := tight nm glue in
    let all := fix all l := match l with [] => True | x :: t => tight x /\ all t end in
    match n with
    | NRaw _ => True
    | NVal (PNum _) _ o => ot_is_id o = false
    | NVal (PStr _) _ o => ot_is_id o = true \/ o = OValue
    | NBox _ [x] => tight x
    | NExpr [x] => tight x
    | NUn op _ [x] => tight x /\ match op with
        | UGroup | UNamed _ => True
        | UNeg | UPos | UNot => (exists pm, pinfo tb (usym op) = Some (op, pm) /\ pm <= plevel x) /\ (glue = true -> op <> UNot -> ~ starts (usym op) (print nm glue x))
        | _ => False end
    | NBin op _ l r => match op with
        | BCall => match l, r with [NVal (PStr _) _ OFunc], _ :: _ => all r | _, _ => False end
        | BStruct | BPtr => match l, r with [NVal (PStr _) _ o], [NVal (PStr b) _ o'] => ot_is_id o = true /\ ot_is_id o' = true /\ nm o' b = b | _, _ => False end
        | BItem => match l, r with [NVal (PStr _) _ o], [x] => ot_is_id o = true /\ tight x | _, _ => False end
        | BNamed _ => match l, r with [x], [y] => tight x /\ tight y | _, _ => False end
        | _ => match l, r with
               | [x], [y] => (exists p q, binfo tb (sym op) = Some (op, p, q) /\ p <= plevel x /\ p < plast x /\ q <= plevel y) /\ tight x /\ tight y
               | _, _ => False end
        end
    | NTri _ [x] [y] [z] => tlevel tb <= plevel x /\ tlevel tb < plast x /\ tlast tb <= plevel z /\ tight x /\ tight y /\ tight z
    | _ => False
    end.
  (** a text that the reader leaves alone when it is at level m *)
  Definition follows (m : nat) (ts : list tok) : Prop :=
    match ts with
    | TOp s :: _ => match binfo tb s with Some (_, p, _) => p < m | None => True end
    | TQ :: _ => tlevel tb < m
    | TL :: _ | TLB :: _ | TDot :: _ | TArrow :: _ => False
    | _ => True
    end.
  (** specification: the operations that are written between their operands *)
  Definition infix (op : binop) : Prop := match op with BCall | BStruct | BPtr | BItem | BNamed _ => False | _ => True end.
  (** specification: what is asked of a table of operators *)
  Definition table_ok : Prop :=
    (forall s op p r, binfo tb s = Some (op, p, r) -> p <= r /\ r <= S p /\ r <= top /\ p < top /\ sym op = s /\ infix op)
    /\ (forall s op p, pinfo tb s = Some (op, p) -> p <= top /\ usym op = s /\ (op = UNeg \/ op = UPos \/ op = UNot))
    /\ tlast tb <= S (tlevel tb) /\ tlast tb <= top /\ tlevel tb < top.
End Levels.

(** the identifiers whose values are asked for; a member a.b or a->b asks for a only *)
Fixpoint names (n : node) : list (otype * string) :=
  match n with
  | NVal (PStr s) _ o => if ot_is_id o then [(o, s)] else []
  | NRaw _ | NVal (PNum _) _ _ => []
  | NBox _ l | NExpr l | NUn _ _ l => flat_map names l
  | NBin op _ l r => flat_map names l ++ match op with BStruct | BPtr => [] | _ => flat_map names r end
  | NTri _ f s t => flat_map names f ++ flat_map names s ++ flat_map names t
  end.
Section Correct.
  Variable tb : table.
  Variable nm : otype -> string -> string.
  Variable glue : bool.
  Variable IB : binop -> list val -> list val -> option val.
  Variable IU : unop -> list val -> option val.
  Variables env env' : string -> option val.
  (** the name as printed stands for the same value *)
  Definition agrees (p : otype * string) : Prop := env' (nm (fst p) (snd p)) = env (snd p).
  (** operations that carry the name of a function of C mean a call of that function *)
  Hypothesis HU : forall s xs, IU (UNamed s) xs = IB BCall [VS s] xs.
  Hypothesis HB : forall s xs ys, IB (BNamed s) xs ys = IB BCall [VS s] (xs ++ ys).
  Hypothesis Hok : exists p, pinfo tb "-" = Some (UNeg, p).
  Notation dn := (den IB IU env' false).
  (** proof helper: how reading goes on *)
  Definition goes (mn : nat) (n' : node) (ts rest : list tok) : Prop :=
    forall out k, (forall f, k <= f -> ploop tb f mn n' rest = Some out) -> exists k', forall f, k' <= f -> pexpr tb f mn (ts ++ rest) = Some out.
  (** proof helper: what is printed is read back with the same meaning *)
  Definition ok (n : node) : Prop := exists n', dn n' = den IB IU env false n /\
    forall mn rest, mn <= plevel tb n -> follows tb (plast tb n) rest -> goes mn n' (print nm glue n) rest.

  Lemma e_num f mn q r : pexpr tb (S f) mn (TNum q :: r) = if Qc_ltb q 0 then None else ploop tb f mn (NVal (PNum q) DUndef OValue) r. Proof. reflexivity. Qed.
  Lemma e_str f mn s r : pexpr tb (S f) mn (TStr s :: r) = ploop tb f mn (NVal (PStr s) DStr OValue) r. Proof. reflexivity. Qed.
  Lemma e_call f mn s r : pexpr tb (S f) mn (TId s :: TL :: r) =
    match pargs tb f r with Some (args, r') => ploop tb f mn (NBin BCall DUndef [NVal (PStr s) DUndef OFunc] args) r' | None => None end. Proof. reflexivity. Qed.
  Lemma e_item f mn s r : pexpr tb (S f) mn (TId s :: TLB :: r) =
    match pexpr tb f 0 r with Some (e, TRB :: r') => ploop tb f mn (NBin BItem DUndef [leaf s] [e]) r' | _ => None end. Proof. reflexivity. Qed.
  Lemma e_struct f mn s t r : pexpr tb (S f) mn (TId s :: TDot :: TId t :: r) = ploop tb f mn (NBin BStruct DUndef [leaf s] [leaf t]) r. Proof. reflexivity. Qed.
  Lemma e_ptr f mn s t r : pexpr tb (S f) mn (TId s :: TArrow :: TId t :: r) = ploop tb f mn (NBin BPtr DUndef [leaf s] [leaf t]) r. Proof. reflexivity. Qed.
  Lemma e_group f mn r : pexpr tb (S f) mn (TL :: r) =
    match pexpr tb f 0 r with Some (e, TR :: r') => ploop tb f mn (NUn UGroup DUndef [e]) r' | _ => None end. Proof. reflexivity. Qed.
  Lemma e_op f mn s r : pexpr tb (S f) mn (TOp s :: r) = match pinfo tb s with
    | Some (op, pm) => match pexpr tb f pm r with Some (e, r') => ploop tb f mn (NUn op DUndef [e]) r' | None => None end
    | None => None end. Proof. reflexivity. Qed.
  Lemma l_op f mn lhs s r : ploop tb (S f) mn lhs (TOp s :: r) = match binfo tb s with
    | Some (op, p, rm) => if mn <=? p then match pexpr tb f rm r with Some (e, r') => ploop tb f mn (NBin op DUndef [lhs] [e]) r' | None => None end else Some (lhs, TOp s :: r)
    | None => Some (lhs, TOp s :: r) end. Proof. reflexivity. Qed.
  Lemma l_tri f mn lhs r : ploop tb (S f) mn lhs (TQ :: r) = if mn <=? tlevel tb then
      match pexpr tb f 0 r with
      | Some (x, TColon :: r') => match pexpr tb f (tlast tb) r' with Some (y, r'') => ploop tb f mn (NTri DUndef [lhs] [x] [y]) r'' | None => None end
      | _ => None end else Some (lhs, TQ :: r). Proof. reflexivity. Qed.
  Lemma a_eq f ts : pargs tb (S f) ts = match pexpr tb f 0 ts with
    | Some (e, TComma :: r) => match pargs tb f r with Some (es, r') => Some (e :: es, r') | None => None end
    | Some (e, TR :: r) => Some ([e], r)
    | _ => None end. Proof. reflexivity. Qed.

  Lemma stops m n rest : follows tb m rest -> forall f, 1 <= f -> ploop tb f m n rest = Some (n, rest).
  Proof.
    intros H [|f] F; [lia|]. cbn [ploop]. destruct rest as [|[q|s|s|s| | | | | | | | |] r]; try reflexivity; cbn in H.
    - destruct (binfo tb s) as [[[op p] q]|]; [|reflexivity]. now rewrite (proj2 (Nat.leb_gt _ _) H).
    - now rewrite (proj2 (Nat.leb_gt _ _) H).
  Qed.
  Lemma follows_mono m m' rest : m <= m' -> follows tb m rest -> follows tb m' rest.
  Proof. intros L. destruct rest as [|[q|s|s|s| | | | | | | | |] r]; cbn; try tauto; [|lia]. destruct (binfo tb s) as [[[op p] q]|]; [lia|tauto]. Qed.
  Lemma follows_min a b rest : follows tb (Nat.min a b) rest -> follows tb a rest /\ follows tb b rest.
  Proof. intro H. split; revert H; apply follows_mono; lia. Qed.
  (** a complete operand *)
  Lemma complete n n' m rest : (forall mn rest, mn <= plevel tb n -> follows tb (plast tb n) rest -> goes mn n' (print nm glue n) rest) ->
    m <= plevel tb n -> follows tb m rest -> follows tb (plast tb n) rest -> exists k, forall f, k <= f -> pexpr tb f m (print nm glue n ++ rest) = Some (n', rest).
  Proof. intros G L F F'. apply (G m rest L F' (n', rest) 1). now apply stops. Qed.
  Lemma closed_here n n' rest : (forall mn rest, mn <= plevel tb n -> follows tb (plast tb n) rest -> goes mn n' (print nm glue n) rest) ->
    (match rest with TR :: _ | TRB :: _ | TComma :: _ | TColon :: _ | [] => True | _ => False end) -> exists k, forall f, k <= f -> pexpr tb f 0 (print nm glue n ++ rest) = Some (n', rest).
  Proof. intros G R. apply complete; [exact G|lia| |]; destruct rest as [|[] r]; cbn; tauto. Qed.
  Lemma num_ok q o : ot_is_id o = false -> exists n', dn n' = Some [VN q] /\
    forall mn rest, follows tb (if Qc_ltb q 0 then prefix_level tb "-" else top) rest -> goes mn n' (num_toks q) rest.
  Proof.
    intro O. unfold num_toks. destruct (Qc_ltb q 0) eqn:Eq.
    - exists (NUn UNeg DUndef [NVal (PNum (- q)) DUndef OValue]). split; [cbn; now rewrite Qcopp_involutive|].
      intros mn rest F out k K. destruct Hok as (p & Hp). unfold prefix_level in F. rewrite Hp in F.
      exists (S (S (S k))). intros [|[|[|f]]] Hf; try lia. cbn [app]. assert (Eq' : Qc_ltb (- q) 0 = false).
      { apply Qc_ltb_lt in Eq. unfold Qc_ltb. destruct (Qclt_le_dec (- q) 0) as [B|B]; [|reflexivity]. exfalso. apply (Qclt_not_le _ _ Eq).
        apply Qcopp_le_compat in B || apply Qclt_le_weak in B. apply Qcopp_le_compat in B. rewrite Qcopp_involutive in B. exact B. }
      rewrite e_op, Hp, e_num, Eq'. rewrite stops by (auto; lia). apply K. lia.
    - exists (NVal (PNum q) DUndef OValue). split; [reflexivity|]. intros mn rest F out k K. exists (S k). intros [|f] Hf; [lia|]. cbn [app]. rewrite e_num, Eq. apply K. lia.
  Qed.
  Lemma follows_no_access m rest : follows tb m rest -> match rest with TL :: _ | TLB :: _ | TDot :: _ | TArrow :: _ => False | _ => True end.
  Proof. destruct rest as [|[] r]; cbn; auto. Qed.
  Lemma id_goes s mn rest m : follows tb m rest -> goes mn (leaf s) [TId s] rest.
  Proof.
    intros F out k K. apply follows_no_access in F. exists (S k). intros [|f] Hf; [lia|]. cbn [app pexpr].
    destruct rest as [|[] r]; try destruct F; apply K; lia.
  Qed.
  Lemma args_ok args : args <> [] -> Forall ok args -> exists args', catM dn args' = catM (den IB IU env false) args /\ args' <> [] /\
    forall rest, exists k, forall f, k <= f -> pargs tb f (joined (map (print nm glue) args) ++ TR :: rest) = Some (args', rest).
  Proof.
    intros N H. induction H as [|x l (x' & Dx & Gx) Hl IH]; [congruence|]. destruct l as [|y l].
    - exists [x']. split; [exact Dx|]. split; [discriminate|]. intro rest. destruct (closed_here x x' (TR :: rest) Gx I) as (k & K).
      exists (S k). intros [|f] Hf; [lia|]. cbn [map joined]. rewrite a_eq, K by lia. reflexivity.
    - destruct IH as (l' & Dl & Nl & Gl); [discriminate|]. exists (x' :: l'). split; [|split; [discriminate|]].
      + destruct l' as [|y' l']; [congruence|]. rewrite !catM_cons2, Dx, Dl. reflexivity.
      + intro rest. destruct (Gl rest) as (k & K). cbn [map joined] in K |- *. rewrite <- app_assoc. cbn [app].
        destruct (closed_here x x' (TComma :: joined (print nm glue y :: map (print nm glue) l) ++ TR :: rest) Gx I) as (k2 & K2).
        exists (S (k + k2)). intros [|f] Hf; [lia|]. cbn [map joined] in K2. rewrite a_eq, K2 by lia. rewrite K by lia. reflexivity.
  Qed.
  Lemma sign_plain s ts : (glue = true -> ~ starts s ts) -> sign glue s ts = TOp s :: ts.
  Proof.
    intro H. unfold sign. destruct glue; [|reflexivity]. specialize (H eq_refl). cbn [negb]. destruct ts as [|[q|t|t|t| | | | | | | | |] r]; try reflexivity. cbn in H.
    destruct (String.eqb_spec t s) as [->|]; [tauto|]. destruct (String.eqb_spec t (s ++ s)) as [->|]; [tauto|reflexivity].
  Qed.
  Lemma call_goes mn s rest args' ts : (exists k, forall f, k <= f -> pargs tb f (ts ++ TR :: rest) = Some (args', rest)) ->
    goes mn (NBin BCall DUndef [NVal (PStr s) DUndef OFunc] args') (TId s :: TL :: ts ++ [TR]) rest.
  Proof.
    intros (k & K) out k2 K2. exists (S (k + k2)). intros [|f] Hf; [lia|]. cbn [app]. rewrite <- app_assoc. cbn [app]. rewrite e_call, K by lia. apply K2. lia.
  Qed.
  Lemma binary_goes op p r mn x x' y y' rest : binfo tb (sym op) = Some (op, p, r) ->
    (forall mn rest, mn <= plevel tb x -> follows tb (plast tb x) rest -> goes mn x' (print nm glue x) rest) ->
    (forall mn rest, mn <= plevel tb y -> follows tb (plast tb y) rest -> goes mn y' (print nm glue y) rest) ->
    p <= plevel tb x -> p < plast tb x -> r <= plevel tb y -> mn <= p -> follows tb r rest -> follows tb (plast tb y) rest ->
    goes mn (NBin op DUndef [x'] [y']) (print nm glue x ++ TOp (sym op) :: print nm glue y) rest.
  Proof.
    intros E Gx Gy Px Lx Ry Mn F F' out k K. rewrite <- app_assoc. cbn [app].
    destruct (complete y y' r rest Gy Ry F F') as (k2 & K2).
    assert (L1 : mn <= plevel tb x) by lia. assert (L2 : follows tb (plast tb x) (TOp (sym op) :: print nm glue y ++ rest)) by (cbn [follows]; now rewrite E).
    apply (Gx mn _ L1 L2 out (S (k + k2))).
    intros [|f] Hf; [lia|]. rewrite l_op, E. rewrite (proj2 (Nat.leb_le _ _) Mn), K2 by lia. apply K. lia.
  Qed.
  Lemma tight_ok n : tight tb nm glue n -> Forall agrees (names n) -> ok n.
  Proof.
    induction n using node_ind'; intros T A.
    - destruct (num_ok q OValue eq_refl) as (n' & D & G). exists n'. split; [exact D|]. intros mn rest _. apply G.
    - destruct p as [q|s]; cbn [tight] in T.
      + destruct (num_ok q o T) as (n' & D & G). exists n'. split; [cbn [den]; rewrite T; exact D|]. intros mn rest _. apply G.
      + destruct (ot_is_id o) eqn:O.
        * exists (leaf (nm o s)). split; [cbn [den leaf ot_is_id]; rewrite O; cbn [names] in A; rewrite O in A; inversion A as [|? ? A1 _]; unfold agrees in A1; cbn [fst snd] in A1; rewrite A1; reflexivity|]. intros mn rest L F. cbn [print]. rewrite O. exact (id_goes _ mn rest _ F).
        * destruct T as [T| ->]; [discriminate|]. exists (NVal (PStr s) DStr OValue). split; [reflexivity|]. intros mn rest L F out k K. exists (S k).
          intros [|f] Hf; [lia|]. cbn [print ot_is_id app]. rewrite e_str. apply K. lia.
    - destruct l as [|x [|y l]]; try destruct T. inversion H as [|? ? Hx _]; subst. cbn [names flat_map] in A; rewrite app_nil_r in A. destruct (Hx T A) as (n' & D & G). exists n'. split; [exact D|exact G].
    - destruct a as [|x [|y l]]; try destruct T as [T U]; try destruct T. inversion H as [|? ? Hx _]; subst. cbn [names flat_map] in A; rewrite app_nil_r in A. destruct (Hx T A) as (x' & D & G). clear H Hx.
      assert (Pre : (exists pm, pinfo tb (usym op) = Some (op, pm) /\ pm <= plevel tb x) -> (op = UNeg \/ op = UPos \/ op = UNot) ->
              forall mn rest, follows tb (Nat.min (prefix_level tb (usym op)) (plast tb x)) rest -> goes mn (NUn op DUndef [x']) (TOp (usym op) :: print nm glue x) rest).
      { intros (pm & E & L) Hop mn rest F out k K. apply follows_min in F as [F F']. unfold prefix_level in F. rewrite E in F. destruct (complete x x' pm rest G L F F') as (k2 & K2).
        exists (S (k + k2)). intros [|f] Hf; [lia|]. cbn [app]. rewrite e_op, E, K2 by lia. apply K. lia. }
      destruct op; try (destruct U; fail); try (match type of U with _ /\ _ => destruct U as [U1 U2] end).
      + exists (NUn UNeg DUndef [x']). split; [cbn [den]; rewrite !den_single, D; reflexivity|]. intros mn rest L F. cbn [print map joined]. rewrite sign_plain by (intro Gl; apply U2; [exact Gl|discriminate]).
        apply (Pre U1); auto.
      + exists (NUn UPos DUndef [x']). split; [cbn [den]; rewrite !den_single, D; reflexivity|]. intros mn rest L F. cbn [print map joined]. rewrite sign_plain by (intro Gl; apply U2; [exact Gl|discriminate]).
        apply (Pre U1); auto.
      + exists (NUn UGroup DUndef [x']). split; [cbn [den]; rewrite !den_single, D; reflexivity|]. intros mn rest L F out k K.
        cbn [print map joined]. cbn [app]. rewrite <- app_assoc. cbn [app]. destruct (closed_here x x' (TR :: rest) G I) as (k2 & K2).
        exists (S (k + k2)). intros [|f] Hf; [lia|]. rewrite e_group, K2 by lia. apply K. lia.
      + exists (NUn UNot DUndef [x']). split; [cbn [den]; rewrite !den_single, D; reflexivity|]. intros mn rest L F. cbn [print map joined].
        apply (Pre U1); auto.
      + exists (NBin BCall DUndef [NVal (PStr s) DUndef OFunc] [x']). split.
        * cbn [den]. rewrite !den_single, D. cbn [den ot_is_id]. destruct (den IB IU env false x) as [xs|]; [|reflexivity]. cbn [un_sem bin_sem arith_of]. rewrite HU. reflexivity.
        * intros mn rest L F. cbn [print map joined]. apply call_goes. destruct (closed_here x x' (TR :: rest) G I) as (k & K). exists (S k). intros [|f] Hf; [lia|]. rewrite a_eq, K by lia. reflexivity.
    - assert (Plain : forall x y, l = [x] -> r = [y] -> Forall agrees (names x) -> Forall agrees (names y) -> (exists p q, binfo tb (sym op) = Some (op, p, q) /\ p <= plevel tb x /\ p < plast tb x /\ q <= plevel tb y) /\ tight tb nm glue x /\ tight tb nm glue y ->
              exists x' y' p q, dn x' = den IB IU env false x /\ dn y' = den IB IU env false y /\ binfo tb (sym op) = Some (op, p, q) /\
              forall mn rest, mn <= p -> follows tb (Nat.min q (plast tb y)) rest -> goes mn (NBin op DUndef [x'] [y']) (print nm glue x ++ TOp (sym op) :: print nm glue y) rest).
      { intros x y -> -> Ax Ay ((p & q & E & Px & Lx & Ry) & Tx & Ty). inversion H as [|? ? Hx _]; subst. inversion H0 as [|? ? Hy _]; subst.
        destruct (Hx Tx Ax) as (x' & Dx & Gx). destruct (Hy Ty Ay) as (y' & Dy & Gy). exists x', y', p, q. split; [exact Dx|]. split; [exact Dy|]. split; [exact E|].
        intros mn rest Mn F. apply follows_min in F as [F F']. eapply binary_goes; eauto. }
      assert (Simple : forall x y, l = [x] -> r = [y] -> bracketing op = false -> Forall agrees (names x) -> Forall agrees (names y) -> (match op with BCall | BStruct | BPtr | BItem | BNamed _ => False | _ => True end) ->
              (exists p q, binfo tb (sym op) = Some (op, p, q) /\ p <= plevel tb x /\ p < plast tb x /\ q <= plevel tb y) /\ tight tb nm glue x /\ tight tb nm glue y -> ok (NBin op d l r)).
      { intros x y El Er Bk Ax Ay Hop U. destruct (Plain x y El Er Ax Ay U) as (x' & y' & p & q & Dx & Dy & E & G). exists (NBin op DUndef [x'] [y']). subst l r. split.
        - destruct op; try destruct Hop; cbn [den]; rewrite !den_single, Dx, Dy; reflexivity.
        - intros mn rest L F. cbn [plevel plast] in L, F. rewrite Bk in L, F. destruct op; try destruct Hop; try discriminate Bk; rewrite E in L, F; cbn [print map joined]; now apply G. }
      assert (Brackets : forall x y, l = [x] -> r = [y] -> bracketing op = true -> Forall agrees (names x) -> Forall agrees (names y) ->
              (exists p q, binfo tb (sym op) = Some (op, p, q) /\ p <= plevel tb x /\ p < plast tb x /\ q <= plevel tb y) /\ tight tb nm glue x /\ tight tb nm glue y -> ok (NBin op d l r)).
      { intros x y El Er Bk Ax Ay U. destruct (Plain x y El Er Ax Ay U) as (x' & y' & p & q & Dx & Dy & E & G). exists (NUn UGroup DUndef [NBin op DUndef [x'] [y']]). subst l r. split.
        - destruct op; try discriminate Bk; cbn [den]; rewrite !den_single; cbn [den]; rewrite !den_single, Dx, Dy;
          destruct (den IB IU env false x), (den IB IU env false y); try reflexivity; unfold single; destruct (bin_sem _ _ _ _); reflexivity.
        - intros mn rest L F out k K. replace (print nm glue (NBin op d [x] [y])) with (TL :: (print nm glue x ++ TOp (sym op) :: print nm glue y) ++ [TR])
            by (destruct op; try discriminate Bk; cbn [print map joined]; now rewrite <- app_assoc).
          destruct (G 0 (TR :: rest) ltac:(lia) I (NBin op DUndef [x'] [y'], TR :: rest) 1) as (k2 & K2).
          { intros f Hf. apply stops; [exact I|exact Hf]. }
          exists (S (k + k2)). intros [|f] Hf; [lia|]. cbn [app]. rewrite <- app_assoc. cbn [app]. rewrite e_group. change (TR :: rest) with ([TR] ++ rest) in K2. rewrite K2 by lia. apply K. lia. }
      destruct op; try (destruct l as [|x [|x2 l]]; try (destruct T; fail); destruct r as [|y [|y2 r]]; try (destruct T; fail);
        cbn [names flat_map] in A; rewrite !app_nil_r in A; apply Forall_app in A as [Ax Ay];
        solve [exact (Simple x y eq_refl eq_refl eq_refl Ax Ay I T)|exact (Brackets x y eq_refl eq_refl eq_refl Ax Ay T)]).
      + (* call *)
        destruct r as [|a r]; destruct l as [|[|[|g] ? []| | | | |] [|? ?]]; try (destruct T; fail).
        assert (A' : Forall ok (a :: r)).
        { cbn [names flat_map ot_is_id app] in A. apply Forall_app in A as [Aa Ar]. cbn [tight] in T. destruct T as [Ta Tr]. inversion H0 as [|? ? Ha Hr]; subst. constructor; [auto|]. clear - Tr Hr Ar.
          induction r as [|z r IH]; [constructor|]. inversion Hr; subst. destruct Tr as [T1 T2]. cbn [flat_map] in Ar. apply Forall_app in Ar as [A1 A2]. constructor; auto. }
        destruct (args_ok (a :: r)) as (args' & Da & Na & Ga); [discriminate|exact A'|].
        exists (NBin BCall DUndef [NVal (PStr g) DUndef OFunc] args'). split.
        * cbn [den]. rewrite Da. reflexivity.
        * intros mn rest L F. cbn [print map joined ot_is_id app]. apply call_goes. exact (Ga rest).
      + (* a.b *)
        destruct l as [|[|[|g] ? o| | | | |] [|? ?]]; try (destruct T; fail). destruct r as [|[|[|h] ? o'| | | | |] [|? ?]]; try (destruct T; fail).
        cbn [tight] in T. destruct T as (O & O' & Hh). exists (NBin BStruct DUndef [leaf (nm o g)] [leaf h]). split.
        * cbn [den]. rewrite !den_single. cbn [den leaf ot_is_id]. cbn [names flat_map] in A. rewrite O in A. cbn [app] in A. inversion A as [|? ? A1 _]. unfold agrees in A1; cbn [fst snd] in A1. rewrite O, O', A1. reflexivity.
        * intros mn rest L F out k K. cbn [print map joined]. rewrite O, O', Hh. exists (S k). intros [|f] Hf; [lia|]. cbn [app]. rewrite e_struct. apply K. lia.
      + (* a->b *)
        destruct l as [|[|[|g] ? o| | | | |] [|? ?]]; try (destruct T; fail). destruct r as [|[|[|h] ? o'| | | | |] [|? ?]]; try (destruct T; fail).
        cbn [tight] in T. destruct T as (O & O' & Hh). exists (NBin BPtr DUndef [leaf (nm o g)] [leaf h]). split.
        * cbn [den]. rewrite !den_single. cbn [den leaf ot_is_id]. cbn [names flat_map] in A. rewrite O in A. cbn [app] in A. inversion A as [|? ? A1 _]. unfold agrees in A1; cbn [fst snd] in A1. rewrite O, O', A1. reflexivity.
        * intros mn rest L F out k K. cbn [print map joined]. rewrite O, O', Hh. exists (S k). intros [|f] Hf; [lia|]. cbn [app]. rewrite e_ptr. apply K. lia.
      + (* a[e] *)
        destruct l as [|[|[|g] ? o| | | | |] [|? ?]]; try (destruct T; fail). destruct r as [|y [|? ?]]; try (destruct T; fail).
        cbn [tight] in T. destruct T as (O & Ty). inversion H0 as [|? ? Hy _]; subst. cbn [names flat_map] in A. rewrite O in A. cbn [app] in A. rewrite !app_nil_r in A. inversion A as [|? ? A1 Ay]; subst. unfold agrees in A1; cbn [fst snd] in A1. destruct (Hy Ty Ay) as (y' & Dy & Gy).
        exists (NBin BItem DUndef [leaf (nm o g)] [y']). split.
        * cbn [den]. rewrite !den_single. cbn [den leaf ot_is_id]. rewrite O, Dy, A1. reflexivity.
        * intros mn rest L F out k K. cbn [print map joined]. rewrite O. destruct (closed_here y y' (TRB :: rest) Gy I) as (k2 & K2).
          exists (S (k + k2)). intros [|f] Hf; [lia|]. cbn [app]. rewrite <- app_assoc. cbn [app]. rewrite e_item, K2 by lia. apply K. lia.
      + (* f(x, y) *)
        destruct l as [|x [|? ?]]; try (destruct T; fail). destruct r as [|y [|? ?]]; try (destruct T; fail). cbn [tight] in T. destruct T as (Tx & Ty). cbn [names flat_map] in A; rewrite !app_nil_r in A; apply Forall_app in A as [Ax Ay].
        inversion H as [|? ? Hx _]; subst. inversion H0 as [|? ? Hy _]; subst.
        destruct (args_ok [x; y]) as (args' & Da & Na & Ga); [discriminate|constructor; [auto|constructor; [auto|constructor]]|].
        exists (NBin BCall DUndef [NVal (PStr s) DUndef OFunc] args'). split.
        * cbn [den]. rewrite Da, catM_cons2, !den_single. cbn [den ot_is_id]. destruct (den IB IU env false x) as [xs|]; [|reflexivity].
          destruct (den IB IU env false y) as [ys|]; [|reflexivity]. cbn [bin_sem arith_of]. now rewrite HB.
        * intros mn rest L F. specialize (Ga rest). cbn [map joined] in Ga. cbn [print map joined].
          replace (print nm glue x ++ TComma :: print nm glue y ++ [TR]) with ((print nm glue x ++ TComma :: print nm glue y) ++ [TR]) by now rewrite <- app_assoc. apply call_goes. exact Ga.
    - destruct f as [|x [|? ?]]; try (destruct T; fail). destruct s as [|y [|? ?]]; try (destruct T; fail). destruct t as [|z [|? ?]]; try (destruct T; fail).
      cbn [tight] in T. destruct T as (L1 & L2 & L3 & Tx & Ty & Tz). cbn [names flat_map] in A; rewrite !app_nil_r in A; apply Forall_app in A as [Ax A]; apply Forall_app in A as [Ay Az].
      inversion H as [|? ? Hx _]; subst. inversion H0 as [|? ? Hy _]; subst. inversion H1 as [|? ? Hz _]; subst.
      destruct (Hx Tx Ax) as (x' & Dx & Gx). destruct (Hy Ty Ay) as (y' & Dy & Gy). destruct (Hz Tz Az) as (z' & Dz & Gz).
      exists (NTri DUndef [x'] [y'] [z']). split; [cbn [den]; rewrite !den_single, Dx, Dy, Dz; reflexivity|].
      intros mn rest L F out k K. cbn [plevel plast] in L, F. apply follows_min in F as [F F']. cbn [print map joined]. rewrite <- app_assoc. cbn [app]. rewrite <- app_assoc. cbn [app].
      destruct (closed_here y y' (TColon :: print nm glue z ++ rest) Gy I) as (k2 & K2). destruct (complete z z' (tlast tb) rest Gz L3 F F') as (k3 & K3).
      assert (Lx : mn <= plevel tb x) by lia. assert (Fx : follows tb (plast tb x) (TQ :: print nm glue y ++ TColon :: print nm glue z ++ rest)) by (cbn [follows]; exact L2).
      apply (Gx mn _ Lx Fx out (S (k + k2 + k3))). intros [|f] Hf; [lia|]. rewrite l_tri, (proj2 (Nat.leb_le _ _) L), K2 by lia. rewrite K3 by lia. apply K. lia.
    - destruct l as [|x [|y l]]; try destruct T. inversion H as [|? ? Hx _]; subst. cbn [names flat_map] in A; rewrite app_nil_r in A. destruct (Hx T A) as (n' & D & G). exists n'. split; [exact D|exact G].
  Qed.
End Correct.

(** * Trees as they are read print with enough brackets *)
Section AsRead.
  Variable tb : table.
  Hypothesis Hok : table_ok tb.
  Notation T := (tight tb plain false).
  (** proof helper: the next operator has a lower level *)
  Definition halts (m : nat) (ts : list tok) : Prop :=
    match ts with
    | TOp s :: _ => match binfo tb s with Some (_, p, _) => p < m | None => True end
    | TQ :: _ => tlevel tb < m
    | _ => True
    end.
  Lemma halts_top ts : halts top ts.
  Proof. destruct Hok as (A & _ & _ & _ & B). destruct ts as [|[] r]; cbn; auto. destruct (binfo tb s) as [[[op p] q]|] eqn:E; [|exact I]. now apply (A _ _ _ _ E). Qed.
  Lemma halts_min a b ts : halts a ts -> halts b ts -> halts (Nat.min a b) ts.
  Proof. destruct ts as [|[] r]; cbn; auto; [destruct (binfo tb s) as [[[? ?] ?]|]; [lia|auto]|lia]. Qed.
  (** an operator that follows is of no higher level than l *)
  Definition below (l : nat) (ts : list tok) : Prop := halts (S l) ts.
  Lemma below_of_halts m l ts : m <= S l -> halts m ts -> below l ts.
  Proof. intro L. unfold below. destruct ts as [|[] r]; cbn; auto; [destruct (binfo tb s) as [[[? ?] ?]|]; [lia|auto]|lia]. Qed.
  (** proof helper: the tree that was read so far *)
  Definition good (mn : nat) (n : node) (rest : list tok) : Prop := T n /\ mn <= plevel tb n /\ halts mn rest /\ halts (plast tb n) rest.
  Lemma read_tight f :
    (forall mn ts n rest, mn <= top -> pexpr tb f mn ts = Some (n, rest) -> good mn n rest)
    /\ (forall mn lhs ts n rest, mn <= top -> T lhs -> mn <= plevel tb lhs -> halts (plast tb lhs) ts -> below (plevel tb lhs) ts -> ploop tb f mn lhs ts = Some (n, rest) -> good mn n rest)
    /\ (forall ts es rest, pargs tb f ts = Some (es, rest) -> es <> [] /\ Forall T es).
  Proof.
    destruct Hok as (Hb & Hp & Ht1 & Ht2 & Ht3).
    assert (Z : 0 <= top) by (unfold top; lia).
    induction f as [|f (IHe & IHl & IHa)]; [repeat split; discriminate|].
    assert (Atom : forall mn a r n rest, mn <= top -> T a -> plevel tb a = top -> plast tb a = top -> ploop tb f mn a r = Some (n, rest) -> good mn n rest).
    { intros mn a r n rest M Ta Pa La E. apply (IHl mn a r n rest M Ta); [now rewrite Pa|rewrite La; apply halts_top| |exact E].
      rewrite Pa. apply (below_of_halts top); [lia|apply halts_top]. }
    split; [|split].
    - intros mn ts n rest M E. destruct ts as [|t ts]; [discriminate|]. destruct t as [q|s|s|s| | | | | | | | |]; try discriminate.
      + rewrite e_num in E. destruct (Qc_ltb q 0) eqn:Eq; [discriminate|]. refine (Atom mn _ _ _ _ M _ _ _ E); [reflexivity|reflexivity|cbn [plast]; now rewrite Eq].
      + rewrite e_str in E. refine (Atom mn _ _ _ _ M _ _ _ E); [|reflexivity|reflexivity]. now right.
      + assert (Leaf : forall r, ploop tb f mn (leaf s) r = Some (n, rest) -> good mn n rest) by (intros r X; refine (Atom mn _ _ _ _ M _ _ _ X); [now left|reflexivity|reflexivity]).
        destruct ts as [|[q|s2|s2|s2| | | | | | | | |] ts]; try exact (Leaf _ E); try (cbn in E; exact (Leaf _ E)).
        * rewrite e_call in E. destruct (pargs tb f ts) as [[args r']|] eqn:A; [|discriminate]. apply IHa in A as [Na Fa].
          refine (Atom mn _ _ _ _ M _ _ _ E); [|reflexivity|reflexivity]. cbn [tight]. destruct args as [|a args]; [congruence|]. inversion Fa as [|? ? F1 F2]; subst. split; [exact F1|]. clear - F2. induction F2 as [|z l Hz Hl IH]; [exact I|]. split; [exact Hz|exact IH].
        * rewrite e_item in E. destruct (pexpr tb f 0 ts) as [[e [|[] r']]|] eqn:A; try discriminate. apply IHe in A as (Te & _); [|exact Z].
          refine (Atom mn _ _ _ _ M _ _ _ E); [|reflexivity|reflexivity]. cbn [tight leaf ot_is_id]. auto.
        * destruct ts as [|[] r']; try (cbn in E; exact (Leaf _ E)). rewrite e_struct in E. refine (Atom mn _ _ _ _ M _ _ _ E); [|reflexivity|reflexivity]. cbn. auto.
        * destruct ts as [|[] r']; try (cbn in E; exact (Leaf _ E)). rewrite e_ptr in E. refine (Atom mn _ _ _ _ M _ _ _ E); [|reflexivity|reflexivity]. cbn. auto.
      + rewrite e_op in E. destruct (pinfo tb s) as [[op pm]|] eqn:P; [|discriminate]. destruct (Hp _ _ _ P) as (Pt & Us & Ho).
        destruct (pexpr tb f pm ts) as [[e r']|] eqn:A; [|discriminate]. apply IHe in A as (Te & Pe & H1 & H2); [|exact Pt].
        assert (PL : prefix_level tb (usym op) = pm) by (unfold prefix_level; now rewrite Us, P).
        refine (IHl mn _ _ _ _ M _ _ _ _ E).
        * cbn [tight]. split; [exact Te|]. rewrite <- Us in P. destruct Ho as [->|[->| ->]]; (split; [exists pm; split; [exact P|exact Pe]|discriminate]).
        * exact M.
        * cbn [plast]. rewrite PL. destruct Ho as [->|[->| ->]]; now apply halts_min.
        * apply (below_of_halts top); [cbn; lia|apply halts_top].
      + rewrite e_group in E. destruct (pexpr tb f 0 ts) as [[e [|[] r']]|] eqn:A; try discriminate. apply IHe in A as (Te & _); [|exact Z].
        refine (Atom mn _ _ _ _ M _ _ _ E); [|reflexivity|reflexivity]. cbn [tight]. auto.
    - intros mn lhs ts n rest M Tl Ml Hl Bl E.
      assert (Stop : halts mn ts -> Some (lhs, ts) = Some (n, rest) -> good mn n rest) by (intros Hs [= <- <-]; repeat split; auto).
      destruct ts as [|t ts]; [apply Stop; [exact I|exact E]|]. destruct t as [q|s|s|s| | | | | | | | |]; try (apply Stop; [exact I|exact E]).
      + rewrite l_op in E. cbn [halts] in Hl, Stop. unfold below in Bl. cbn [halts] in Bl. destruct (binfo tb s) as [[[op p] rm]|] eqn:B; [|now apply Stop].
        destruct (Hb _ _ _ _ B) as (B1 & B2 & B3 & B4 & B5 & B6). destruct (Nat.leb_spec mn p) as [L|L]; [|now apply Stop].
        destruct (pexpr tb f rm ts) as [[e r']|] eqn:A; [|discriminate]. apply IHe in A as (Te & Pe & H1 & H2); [|exact B3].
        assert (PL : plevel tb (NBin op DUndef [lhs] [e]) = if bracketing op then top else p).
        { cbn [plevel]. destruct (bracketing op); [reflexivity|]. destruct op; try destruct B6; rewrite B5, B; reflexivity. }
        refine (IHl mn _ _ _ _ M _ _ _ _ E).
        * rewrite <- B5 in B. destruct op; try destruct B6; cbn [tight]; (split; [exists p, rm; repeat split; auto; lia|auto]).
        * rewrite PL. destruct (bracketing op); [exact M|exact L].
        * cbn [plast]. destruct (bracketing op); [apply halts_top|]. destruct op; try destruct B6; rewrite B5, B; now apply halts_min.
        * rewrite PL. destruct (bracketing op); [apply (below_of_halts top); [lia|apply halts_top]|apply (below_of_halts rm); [lia|exact H1]].
      + rewrite l_tri in E. cbn [halts] in Hl, Stop. unfold below in Bl. cbn [halts] in Bl. destruct (Nat.leb_spec mn (tlevel tb)) as [L|L]; [|now apply Stop].
        destruct (pexpr tb f 0 ts) as [[x [|[] r']]|] eqn:A; try discriminate. apply IHe in A as (Tx & _); [|exact Z].
        destruct (pexpr tb f (tlast tb) r') as [[y r'']|] eqn:A2; [|discriminate]. apply IHe in A2 as (Ty & Py & H1 & H2); [|exact Ht2].
        refine (IHl mn _ _ _ _ M _ _ _ _ E).
        * cbn [tight]. repeat split; auto; lia.
        * exact L.
        * cbn [plast]. now apply halts_min.
        * cbn [plevel]. apply (below_of_halts (tlast tb)); [lia|exact H1].
    - intros ts es rest E. rewrite a_eq in E. destruct (pexpr tb f 0 ts) as [[e [|[] r']]|] eqn:A; try discriminate; apply IHe in A as (Te & _); try exact Z.
      + injection E as <- <-. split; [discriminate|auto].
      + destruct (pargs tb f r') as [[es' r'']|] eqn:A2; [|discriminate]. injection E as <- <-. apply IHa in A2 as [_ Fa]. split; [discriminate|auto].
  Qed.
End AsRead.

(** * More budget changes nothing *)
Lemma parser_mono tb f :
  (forall mn ts r, pexpr tb f mn ts = Some r -> pexpr tb (S f) mn ts = Some r)
  /\ (forall mn lhs ts r, ploop tb f mn lhs ts = Some r -> ploop tb (S f) mn lhs ts = Some r)
  /\ (forall ts r, pargs tb f ts = Some r -> pargs tb (S f) ts = Some r).
Proof.
  induction f as [|f (IHe & IHl & IHa)]; [repeat split; discriminate|]. split; [|split].
  - intros mn ts r E. destruct ts as [|t ts]; [discriminate|]. destruct t as [q|s|s|s| | | | | | | | |]; try discriminate.
    + rewrite e_num in *. destruct (Qc_ltb q 0); [discriminate|auto].
    + rewrite e_str in *. auto.
    + assert (Leaf : forall r0 g, ploop tb f mn (leaf s) r0 = Some r -> g = f -> ploop tb (S g) mn (leaf s) r0 = Some r) by (intros r0 g X ->; auto).
      destruct ts as [|[q|s2|s2|s2| | | | | | | | |] ts]; try exact (Leaf _ _ E eq_refl).
      * rewrite e_call in *. destruct (pargs tb f ts) as [[args r']|] eqn:A; [|discriminate]. rewrite (IHa _ _ A). auto.
      * rewrite e_item in *. destruct (pexpr tb f 0 ts) as [[e r']|] eqn:A; [|discriminate]. rewrite (IHe _ _ _ A). destruct r' as [|[] r']; try discriminate. auto.
      * destruct ts as [|[] ts]; try exact (Leaf _ _ E eq_refl). rewrite e_struct in *. auto.
      * destruct ts as [|[] ts]; try exact (Leaf _ _ E eq_refl). rewrite e_ptr in *. auto.
    + rewrite e_op in *. destruct (pinfo tb s) as [[op pm]|]; [|discriminate]. destruct (pexpr tb f pm ts) as [[e r']|] eqn:A; [|discriminate]. rewrite (IHe _ _ _ A). auto.
    + rewrite e_group in *. destruct (pexpr tb f 0 ts) as [[e r']|] eqn:A; [|discriminate]. rewrite (IHe _ _ _ A). destruct r' as [|[] r']; try discriminate. auto.
  - intros mn lhs ts r E. destruct ts as [|t ts]; [exact E|]. destruct t as [q|s|s|s| | | | | | | | |]; try exact E.
    + rewrite l_op in *. destruct (binfo tb s) as [[[op p] rm]|]; [|exact E]. destruct (mn <=? p); [|exact E].
      destruct (pexpr tb f rm ts) as [[e r']|] eqn:A; [|discriminate]. rewrite (IHe _ _ _ A). auto.
    + rewrite l_tri in *. destruct (mn <=? tlevel tb); [|exact E]. destruct (pexpr tb f 0 ts) as [[x r']|] eqn:A; [|discriminate]. rewrite (IHe _ _ _ A).
      destruct r' as [|[] r']; try discriminate. destruct (pexpr tb f (tlast tb) r') as [[y r'']|] eqn:A2; [|discriminate]. rewrite (IHe _ _ _ A2). auto.
  - intros ts r E. rewrite a_eq in *. destruct (pexpr tb f 0 ts) as [[e r']|] eqn:A; [|discriminate]. rewrite (IHe _ _ _ A). destruct r' as [|[] r']; try discriminate; auto.
    destruct (pargs tb f r') as [[es r'']|] eqn:A2; [|discriminate]. rewrite (IHa _ _ A2). exact E.
Qed.
Lemma reads_by tb k ts n : pexpr tb k 0 ts = Some (n, []) -> reads tb ts n.
Proof.
  intro E. exists k. intros f Hf. induction Hf as [|f Hf IH]; [exact E|]. now apply parser_mono.
Qed.
Lemma reads_at tb ts n : reads tb ts n -> exists k, pexpr tb k 0 ts = Some (n, []).
Proof. intros (k & K). exists k. apply K. lia. Qed.
Lemma reads_unique tb ts n n' : reads tb ts n -> reads tb ts n' -> n = n'.
Proof. intros (k & K) (k' & K'). specialize (K (k + k') ltac:(lia)). specialize (K' (k + k') ltac:(lia)). congruence. Qed.

Lemma look_In {A} (l : list (string * A)) s v : look l s = Some v -> In (s, v) l.
Proof.
  unfold look. destruct (find _ l) as [[s' v']|] eqn:E; [|discriminate]. intros [= <-]. apply find_some in E as [I E]. apply String.eqb_eq in E. cbn in E. subst s'. exact I.
Qed.
Lemma mc_table_ok : table_ok mc_table.
Proof.
  split; [|split; [|cbn; unfold top; lia]].
  - intros s op p r E. apply look_In in E. cbn [In] in E. repeat (destruct E as [E|E]; [injection E as <- <- <- <-; unfold top; repeat split; lia|]). destruct E.
  - intros s op p E. apply look_In in E. cbn [In] in E. repeat (destruct E as [E|E]; [injection E as <- <- <-; unfold top; repeat split; try lia; auto|]). destruct E.
Qed.

(** * Two tables that order the same operators alike *)
Section Agree.
  Variables ta tb : table.
  Variable word : string -> Prop.
  Variable rel : nat -> nat -> Prop.
  Hypothesis R0 : rel 0 0.
  Hypothesis RB : forall s, word s -> match binfo ta s, binfo tb s with
    | Some (op, p, r), Some (op', p', r') => op = op' /\ rel r r' /\ (forall m m', rel m m' -> (m <= p <-> m' <= p'))
    | None, None => True | _, _ => False end.
  Hypothesis RP : forall s, word s -> match pinfo ta s, pinfo tb s with
    | Some (u, m), Some (u', m') => u = u' /\ rel m m' | None, None => True | _, _ => False end.
  (** proof helper: tokens both tables know *)
  Definition plain_tok (t : tok) : Prop := match t with TOp s => word s | TQ => False | _ => True end.
  (** proof helper: both tables read the same *)
  Definition same {A} (x y : option (A * list tok)) : Prop := x = y /\ match x with Some (_, r) => Forall plain_tok r | None => True end.
  Lemma agree f :
    (forall m m' ts, rel m m' -> Forall plain_tok ts -> same (pexpr ta f m ts) (pexpr tb f m' ts))
    /\ (forall m m' l ts, rel m m' -> Forall plain_tok ts -> same (ploop ta f m l ts) (ploop tb f m' l ts))
    /\ (forall ts, Forall plain_tok ts -> same (pargs ta f ts) (pargs tb f ts)).
  Proof.
    induction f as [|f (IHe & IHl & IHa)]; [repeat split; exact I|]. split; [|split].
    - intros m m' ts R W. destruct ts as [|t ts]; [split; [reflexivity|exact I]|]. inversion W as [|? ? Wt Wr]; subst. destruct t as [q|s|s|s| | | | | | | | |]; try (split; [reflexivity|exact I]).
      + rewrite !e_num. destruct (Qc_ltb q 0); [split; [reflexivity|exact I]|auto].
      + rewrite !e_str. auto.
      + destruct ts as [|[q|s2|s2|s2| | | | | | | | |] ts]; try (apply (IHl m m' (leaf s)); auto; fail).
        * rewrite !e_call. inversion Wr; subst. destruct (IHa ts) as [E F]; [auto|]. rewrite <- E. destruct (pargs ta f ts) as [[args r']|]; [auto|split; [reflexivity|exact I]].
        * rewrite !e_item. inversion Wr; subst. destruct (IHe 0 0 ts) as [E F]; [auto|auto|]. rewrite <- E. destruct (pexpr ta f 0 ts) as [[e [|[] r']]|]; try (split; [reflexivity|exact I]). inversion F; subst. auto.
        * destruct ts as [|[] ts]; try (apply (IHl m m' (leaf s)); auto; fail). rewrite !e_struct. inversion Wr as [|? ? _ W2]; subst. inversion W2; subst. auto.
        * destruct ts as [|[] ts]; try (apply (IHl m m' (leaf s)); auto; fail). rewrite !e_ptr. inversion Wr as [|? ? _ W2]; subst. inversion W2; subst. auto.
      + rewrite !e_op. specialize (RP s Wt). destruct (pinfo ta s) as [[u p]|], (pinfo tb s) as [[u' p']|]; try destruct RP; try (split; [reflexivity|exact I]). subst u'.
        destruct (IHe p p' ts) as [E F]; [auto|auto|]. rewrite <- E. destruct (pexpr ta f p ts) as [[e r']|]; [auto|split; [reflexivity|exact I]].
      + rewrite !e_group. destruct (IHe 0 0 ts) as [E F]; [auto|auto|]. rewrite <- E. destruct (pexpr ta f 0 ts) as [[e [|[] r']]|]; try (split; [reflexivity|exact I]). inversion F; subst. auto.
    - intros m m' l ts R W. destruct ts as [|t ts]; [split; [reflexivity|constructor]|]. inversion W as [|? ? Wt Wr]; subst. destruct t as [q|s|s|s| | | | | | | | |]; try (split; [reflexivity|exact W]); try (destruct Wt; fail).
      rewrite !l_op. specialize (RB s Wt). destruct (binfo ta s) as [[[op p] q]|], (binfo tb s) as [[[op' p'] q']|]; try (destruct RB; fail); try (split; [reflexivity|exact W]).
      destruct RB as (<- & Rq & Rp). assert (Eb : (m <=? p) = (m' <=? p')).
      { destruct (Nat.leb_spec m p) as [L|L], (Nat.leb_spec m' p') as [L'|L']; try reflexivity; exfalso; apply (Rp m m') in R; lia. }
      rewrite <- Eb. destruct (m <=? p); [|split; [reflexivity|exact W]].
      destruct (IHe q q' ts) as [E F]; [auto|auto|]. rewrite <- E. destruct (pexpr ta f q ts) as [[e r']|]; [auto|split; [reflexivity|exact I]].
    - intros ts W. rewrite !a_eq. destruct (IHe 0 0 ts) as [E F]; [auto|auto|]. rewrite <- E. destruct (pexpr ta f 0 ts) as [[e [|[] r']]|]; try (split; [reflexivity|exact I]); inversion F; subst.
      + split; [reflexivity|assumption].
      + destruct (IHa r') as [E2 F2]; [auto|]. rewrite <- E2. destruct (pargs ta f r') as [[es r'']|]; split; auto.
  Qed.
End Agree.
