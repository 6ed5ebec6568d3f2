(** The characters of a written instrument and what the reader of instrument files makes of them.

    Writing: Instr.to_file, instr/instr.py:36-76; Instance.to_file, instr/instance.py:40-71 and 249-255; Jump.to_file, instr/jump.py:13-22;
    InstrumentParameter.to_file and ComponentParameter.to_file, common/parameters.py:12-30 and 56-67; MetaData.to_file,
    common/metadata.py:42-43; TextWrapper, common/textwrap.py:113-215.
    Reading: the lexer of Lexer.v, the rules of grammar/McInstr.g4:18-112 and McCommon.g4:6-36, and instr/visitor.py:26-160, 209-347.

    Simplifications.  Expressions are read as trees (Print.v), what the visitor makes of a tree is the subject of Visit.v.  SHELL, SEARCH,
    %include, COPY, references to PREVIOUS and vectors in braces are not read: no result.  Component types are names, their definitions are
    not looked up.  That a constant WHEN raises (instance.py:194-195) is left out. *)
From Coq Require Import List String Ascii Bool NArith QArith Qcanon ZArith Arith Lia.
From Verif Require Import PyStr Expr Print Lexer ExprChars InstrModel.
From Verif Require InstanceText.
Import ListNotations.
Import InstanceText (ci, mkCi, c_name, c_type, c_params, c_removable, c_cpu, c_split, c_when, c_at, c_at_rel, c_rot, c_rot_rel, c_group, c_extend, c_jump, c_meta,
  newline, is_null, add_meta, m_name, requote, int0, blank).
Local Open Scope string_scope.
Local Open Scope list_scope.
Local Open Scope nat_scope.

(** * Writing *)
(** where str.splitlines ends a line *)
Definition breaks (c : ascii) : bool := existsb (Nat.eqb (code c)) [10; 11; 12; 13; 28; 29; 30; 133].
(** TextWrapper.wrap and the joining of its lines, textwrap.py:115-118, 137-139, 217-219: one more line feed after each line break *)
Fixpoint wrap (s : string) : string :=
  match s with
  | EmptyString => ""
  | String c r =>
      let inside := match r with EmptyString => "" | String d _ => if Ascii.eqb c cr && Ascii.eqb d lf then "" else newline end in
      if breaks c then String c (inside ++ wrap r) else String c (wrap r)
  end.
(** instr/instr.py:36-76: x or 'None' *)
Definition or_none (s : string) : string := if s =?s "" then "None" else s.
(** TextWrapper.line, common/textwrap.py:113-215 *)
Definition line (name : string) (items : list string) : string := wrap (name ++ " " ++ join " " (map or_none items)).
(** TextWrapper.quoted_line, common/textwrap.py:113-215 *)
Definition quoted_line (name : string) (items : list string) : string := wrap (name ++ " " ++ String dquote (join " " (map or_none items) ++ String dquote "")).
(** textwrap.py:134-135, with the line feed of print *)
Definition block (name content : string) : string := name ++ newline ++ "%{" ++ newline ++ newline ++ content ++ newline ++ "%}" ++ newline ++ newline.
(** blocks, if there are any; instr.py:60-65, 72-75, 505-506, instance.py:64-66 *)
Definition blocks (name : string) (l : list string) : string := match l with [] => "" | _ => block name (join newline l) end.
(** instr/instance.py:249-255 *)
Definition ref_text (r : option string) : string := match r with None => "ABSOLUTE" | Some n => "RELATIVE " ++ n end.
(** textwrap.py:149-151 *)
Definition meta_text (m : string * string * string) : string :=
  let '(mime, n, v) := m in
  "METADATA " ++ String dquote (mime ++ String dquote (" " ++ n ++ " " ++ newline ++ "%{" ++ newline ++ v ++ newline ++ "%}" ++ newline ++ newline)).
(** the types of instrument parameters, common/parameters.py:12-30 *)
Inductive kind := KFloat | KInt | KStr.
(** InstrumentParameter; the unit with its quotes, as it is read *)
Record par := mkPar { p_name : string; p_unit : option string; p_kind : kind; p_value : option node }.
(** Expr.has_value, expression.py:1143-1148 *)
Definition constant (n : node) : bool := match n with NVal _ _ o | NExpr [NVal _ _ o] => negb (ot_is_id o) | _ => false end.
(** Instr, instr/instr.py:20-34, as far as it is written *)
Record ins := mkIns { i_name : string; i_pars : list par; i_meta : list (string * string * string); i_flags : list string;
  i_declare : list string; i_user : list string; i_init : list string; i_comps : list ci; i_save : list string; i_final : list string }.

Section Write.
  Variable num : Qc -> string.
  Local Notation sh := (show num).
  (** instr/instance.py:249-255 *)
  Definition triple_text (t : triple) : string := let '(x, y, z) := t in "(" ++ sh x ++ ", " ++ sh y ++ ", " ++ sh z ++ ")".
  (** instance.py:249-255 *)
  Definition clause_text (kw : string) (t : triple) (r : option string) (required : bool) : string :=
    if is_null t && (match r with None => true | _ => false end) && negb required then ""
    else kw ++ " " ++ triple_text t ++ " " ++ ref_text r.
  (** common/parameters.py:56-67 *)
  Definition param_text (p : string * node) : string := fst p ++ "=" ++ sh (snd p).
  (** jump.py:13-22 *)
  Definition jump_text (j : jump) : string :=
    let n := j_target j in
    let n := if has_char "_" n && (startswith "PREVIOUS" n || startswith "NEXT" n)
             then match split_char "_" n with x :: _ => x | [] => n end else n in
    let n := if (1 <? Z.abs (j_rel j))%Z then (n ++ " (" ++ str_nat (Z.abs_nat (j_rel j)) ++ ")")%string else n in
    (line "JUMP" [n; if j_iter j then "ITERATE" else "WHEN"; sh (j_cond j)] ++ newline)%string.
  (** the line that starts with COMPONENT; instance.py:44-59 *)
  Definition head_text (c : ci) : string :=
    "COMPONENT " ++ c_name c ++ " = " ++ c_type c ++ "(" ++ join ", " (map param_text (c_params c)) ++ ") " ++
    match c_when c with Some e => "WHEN " ++ sh e ++ " " | None => "" end ++
    clause_text "AT" (c_at c) (c_at_rel c) true ++ " " ++ clause_text "ROTATED" (c_rot c) (c_rot_rel c) false.
  (** what follows it; instance.py:63-71 *)
  Definition tail_text (c : ci) : string :=
    match c_group c with Some g => line "GROUP" [g] ++ newline | None => "" end ++
    blocks "EXTEND" (c_extend c) ++ String.concat "" (map jump_text (c_jump c)) ++ String.concat "" (map meta_text (c_meta c)).
  (** Instance.to_file, instr/instance.py:40-71 *)
  Definition inst_text (c : ci) : string := (if c_cpu c then line "CPU" [] else "") ++ head_text c ++ tail_text c.
  (** parameters.py:12-26 *)
  Definition par_text (p : par) : string :=
    match p_kind p with KStr => "string " | KInt => "int " | KFloat => "" end ++ p_name p ++
    match p_unit p with Some u => "/" ++ u | None => "" end ++
    match p_value p with Some e => if constant e then "=" ++ sh e else "" | None => "" end.
  (** instr.py:36-76; [notes] is what stands in the comment in front, between the first word and the end, see [head_comment] *)
  Definition instr_text (notes : string) (i : ins) : string :=
    "/* " ++ notes ++ "*/" ++ newline ++
    line "DEFINE INSTRUMENT" [(i_name i ++ "(" ++ join ", " (map par_text (i_pars i)) ++ ")")%string] ++ newline ++
    String.concat "" (map meta_text (i_meta i)) ++
    match i_flags i with [] => "" | l => quoted_line "DEPENDENCY " l ++ newline end ++
    blocks "DECLARE" (i_declare i) ++ blocks "USERVARS" (i_user i) ++ blocks "INITIALIZE" (i_init i) ++
    "TRACE" ++ newline ++ String.concat "" (map (fun c => (newline ++ inst_text c ++ newline)%string) (i_comps i)) ++
    blocks "SAVE" (i_save i) ++ blocks "FINALLY" (i_final i) ++ "END" ++ newline.
End Write.
(** instr.py:42-49; a registry writes its own lines *)
Definition head_comment (name : string) (source : option string) (included names : list string) (registries : list string) : string :=
  "Instrument " ++ name ++ newline ++ line "Instrument:" [or_none name] ++ newline ++
  line "Source:" [match source with Some s => or_none s | None => "None" end] ++ newline ++
  line "Contains:" (map (fun s => String dquote ("%include " ++ s ++ String dquote "")) included) ++ newline ++
  line "Registries:" names ++ newline ++ String.concat "" (map (fun s => (s ++ newline)%string) registries).

(** * Reading *)
Local Notation "'read' p <- e ; f" := (match e with Some p => f | None => None end) (at level 200, p pattern, e at level 100, f at level 200).
(** a keyword *)
Definition q_kw (k : string) (l : list ltok) : option (list ltok) := match l with LKey k' :: t => if k' =?s k then Some t else None | _ => None end.
(** a sign *)
Definition q_sym (s : string) (l : list ltok) : option (list ltok) := match l with LSym s' :: t => if s' =?s s then Some t else None | _ => None end.
(** an identifier *)
Definition q_id (l : list ltok) : option (string * list ltok) := match l with LId s :: t => Some (s, t) | _ => None end.
(** an optional part of a rule *)
Definition opt {A} (p : list ltok -> option (A * list ltok)) (starts : bool) (l : list ltok) : option (option A * list ltok) :=
  if starts then read (a, t) <- p l; Some (Some a, t) else Some (None, l).
(** the next token is the keyword *)
Definition at_kw (k : string) (l : list ltok) : bool := match q_kw k l with Some _ => true | None => false end.
(** an optional keyword *)
Definition opt_kw (k : string) (l : list ltok) : bool * list ltok := match q_kw k l with Some t => (true, t) | None => (false, l) end.
(** the tokens that can stand in an expression *)
Fixpoint etoks (l : list ltok) : list tok := match l with [] => [] | t :: r => match expr_tok t with Some u => u :: etoks r | None => [] end end.
(** expr, McCommon.g4:39-68: as much as can be read as one expression *)
Definition budget (ts : list tok) : nat := 2 * List.length ts + 1.
(** expr, grammar/McCommon.g4:39-68 *)
Definition q_expr (l : list ltok) : option (node * list ltok) :=
  let ts := etoks l in
  match pexpr mc_table (budget ts) 0 ts with
  | Some (n, r) => Some (n, skipn (List.length ts - List.length r) l)
  | None => None
  end.
(** coords, McCommon.g4:7 *)
Definition q_triple (l : list ltok) : option (triple * list ltok) :=
  read l <- q_sym "(" l; read (x, l) <- q_expr l; read l <- q_sym "," l; read (y, l) <- q_expr l; read l <- q_sym "," l; read (z, l) <- q_expr l;
  read l <- q_sym ")" l; Some ((x, y, z), l).
(** reference, McCommon.g4:8 *)
Definition q_reference (l : list ltok) : option (option string * list ltok) :=
  match q_kw "ABSOLUTE" l with
  | Some t => Some (None, t)
  | None => read l <- q_kw "RELATIVE" l;
            match q_kw "ABSOLUTE" l with Some t => Some (None, t) | None => read (n, t) <- q_id l; Some (Some n, t) end
  end.
(** place and orientation, grammar/McInstr.g4:99-100 *)
Definition q_clause (k : string) (l : list ltok) : option (triple * option string * list ltok) :=
  read l <- q_kw k l; read (v, l) <- q_triple l; read (r, l) <- q_reference l; Some (v, r, l).
(** instance_parameter, McInstr.g4:88-91 and instr/visitor.py:179-200; NULL is held as a text *)
Definition null_node : node := NVal (PStr "NULL") DStr OValue.
(** instance_parameter, grammar/McInstr.g4:88-93 *)
Definition q_value (l : list ltok) : option (node * list ltok) := match q_kw "NULL" l with Some t => Some (null_node, t) | None => q_expr l end.
(** instance_parameter, grammar/McInstr.g4:88-93 *)
Definition q_param (l : list ltok) : option (string * node * list ltok) := read (n, l) <- q_id l; read l <- q_sym "=" l; read (e, l) <- q_value l; Some (n, e, l).
(** one or more, with commas between them, up to a closing bracket *)
Fixpoint q_list {A} (q : list ltok -> option (A * list ltok)) (fuel : nat) (l : list ltok) : option (list A * list ltok) :=
  match fuel with
  | O => None
  | S f => read (a, l) <- q l;
           match q_sym ")" l with
           | Some t => Some ([a], t)
           | None => read l <- q_sym "," l; read (b, l) <- q_list q f l; Some (a :: b, l)
           end
  end.
(** none or more, in brackets *)
Definition q_brackets {A} (q : list ltok -> option (A * list ltok)) (l : list ltok) : option (list A * list ltok) :=
  read l <- q_sym "(" l; match q_sym ")" l with Some t => Some ([], t) | None => q_list q (List.length l) l end.
(** jumpname, McInstr.g4:104-109 and instr/visitor.py:239-251; with a count the visitor raises, see InstanceText.v *)
Definition q_jumpname (l : list ltok) : option (string * Z * list ltok) :=
  match l with
  | LKey k :: t =>
      let counted := match q_sym "(" t with Some _ => true | None => false end in
      if k =?s "PREVIOUS" then if counted then None else Some ("PREVIOUS", (-1)%Z, t)
      else if k =?s "NEXT" then if counted then None else Some ("NEXT", 1%Z, t)
      else if k =?s "MYSELF" then Some ("MYSELF", 0%Z, t) else None
  | LId s :: t => Some (s, 0%Z, t)
  | _ => None
  end.
(** jump, grammar/McInstr.g4:103 *)
Definition q_jump (l : list ltok) : option (jump * list ltok) :=
  read l <- q_kw "JUMP" l; read (n, r, l) <- q_jumpname l;
  match q_kw "WHEN" l with
  | Some l => read (e, l) <- q_expr l; Some (mkJump n r false e, l)
  | None => read l <- q_kw "ITERATE" l; read (e, l) <- q_expr l; Some (mkJump n r true e, l)
  end.
(** as many as there are *)
Fixpoint q_many {A} (k : string) (q : list ltok -> option (A * list ltok)) (fuel : nat) (l : list ltok) : option (list A * list ltok) :=
  match fuel with
  | O => None
  | S f => if at_kw k l then read (a, l) <- q l; read (b, l) <- q_many k q f l; Some (a :: b, l) else Some ([], l)
  end.
(** repetition of a rule that starts with a keyword *)
Definition q_all {A} (k : string) (q : list ltok -> option (A * list ltok)) (l : list ltok) := q_many k q (S (List.length l)) l.
(** metadata, McCommon.g4:31; instr/visitor.py:333-339, metadata.py:45-54 *)
Definition bare (s : string) : string := substring 1 (String.length s - 2) s.
(** an identifier or a text, grammar/McCommon.g4:6-36 *)
Definition q_word (l : list ltok) : option (string * list ltok) := match l with LId s :: t => Some (s, t) | LStr s :: t => Some (bare s, t) | _ => None end.
(** metadata, grammar/McCommon.g4:6-36 *)
Definition q_meta (l : list ltok) : option ((string * string * string) * list ltok) :=
  read l <- q_kw "METADATA" l; read (m, l) <- q_word l; read (n, l) <- q_word l;
  match l with LBlock v :: t => Some ((m, requote n, v), t) | _ => None end.
(** a keyword and a block, or nothing; block.py:14-17, 48-52 drop what is empty *)
Definition q_block (k : string) (l : list ltok) : option (list string * list ltok) :=
  match q_kw k l with
  | None => Some ([], l)
  | Some (LBlock b :: t) => Some (if blank b then [] else [b], t)
  | Some _ => None
  end.
(** split, McInstr.g4:97 and instr/visitor.py:209-210 *)
Definition q_split (l : list ltok) : option node * list ltok :=
  match q_kw "SPLIT" l with
  | None => (None, l)
  | Some t => match q_expr t with Some (e, r) => (Some e, r) | None => (Some (NExpr [NVal (PNum (Q2Qc 10%Q)) DInt OValue]), t) end
  end.
(** without ROTATED: instr/visitor.py:120-125 *)
Definition q_rotated (ar : option string) (l : list ltok) : option (triple * option string * list ltok) :=
  if at_kw "ROTATED" l then q_clause "ROTATED" l else Some ((int0, int0, int0), ar, l).
(** component_instance, McInstr.g4:63-65 *)
Definition q_inst (l : list ltok) : option (ci * list ltok) :=
  let '(rm, l) := opt_kw "REMOVABLE" l in
  let '(cpu, l) := opt_kw "CPU" l in
  let '(sp, l) := q_split l in
  read l <- q_kw "COMPONENT" l; read (n, l) <- q_id l; read l <- q_sym "=" l; read (ty, l) <- q_id l;
  read (ps, l) <- (if match q_sym "(" l with Some _ => true | None => false end then q_brackets (fun l => read (n, e, t) <- q_param l; Some ((n, e), t)) l else Some ([], l));
  read (wh, l) <- opt (fun l => read l <- q_kw "WHEN" l; q_expr l) (at_kw "WHEN" l) l;
  read (at_, ar, l) <- q_clause "AT" l;
  read (rot, rr, l) <- q_rotated ar l;
  read (g, l) <- opt (fun l => read l <- q_kw "GROUP" l; q_id l) (at_kw "GROUP" l) l;
  read (ex, l) <- q_block "EXTEND" l;
  read (js, l) <- q_all "JUMP" q_jump l;
  read (ms, l) <- q_all "METADATA" q_meta l;
  Some (mkCi n ty ps rm cpu sp wh at_ ar rot rr g ex js (fold_left add_meta ms []), l).
(** instrument_parameter, McInstr.g4:39-46 and instr/visitor.py:54-75 *)
Definition q_unit (l : list ltok) : option (option string * list ltok) :=
  match q_sym "/" l with None => Some (None, l) | Some (LStr u :: t) => Some (Some u, t) | Some _ => None end.
(** the default value of an instrument parameter, grammar/McInstr.g4:39-43 *)
Definition q_default (k : kind) (l : list ltok) : option (option node * list ltok) :=
  match q_sym "=" l with
  | None => Some (None, l)
  | Some l => match k with
              | KStr => match l with LStr s :: t => Some (Some (NVal (PStr s) DStr OValue), t) | LZero :: t => Some (Some null_node, t) | _ => read t <- q_kw "NULL" l; Some (Some null_node, t) end
              | _ => read (e, t) <- q_expr l; Some (Some e, t)
              end
  end.
(** the type of an instrument parameter, grammar/McInstr.g4:39-43 *)
Definition q_kind (l : list ltok) : option (kind * list ltok) :=
  match q_kw "double" l with
  | Some t => Some (KFloat, t)
  | None => match q_kw "int" l with
            | Some t => Some (KInt, t)
            | None => match q_kw "string" l with
                      | Some t => Some (KStr, t)
                      | None => match q_kw "char" l with Some t => read t <- q_sym "*" t; Some (KStr, t) | None => Some (KFloat, l) end
                      end
            end
  end.
(** instrument_parameter, grammar/McInstr.g4:39-45 *)
Definition q_par (l : list ltok) : option (par * list ltok) :=
  read (k, l) <- q_kind l; read (n, l) <- q_id l; read (u, l) <- q_unit l; read (v, l) <- q_default k l; Some (mkPar n u k v, l).
(** the instances up to another keyword; a reference to a component that was not seen is none, instr/visitor.py:253-272 *)
Definition known (seen : list string) (r : option string) : option string := match r with Some n => if isin n seen then Some n else None | None => None end.
(** instr/visitor.py:109-160: references become instances *)
Definition resolve (seen : list string) (c : ci) : ci :=
  mkCi (c_name c) (c_type c) (c_params c) (c_removable c) (c_cpu c) (c_split c) (c_when c) (c_at c) (known seen (c_at_rel c)) (c_rot c) (known seen (c_rot_rel c))
    (c_group c) (c_extend c) (c_jump c) (c_meta c).
Fixpoint q_trace (fuel : nat) (seen : list string) (l : list ltok) : option (list ci * list ltok) :=
  match fuel with
  | O => None
  | S f => if at_kw "COMPONENT" l || at_kw "REMOVABLE" l || at_kw "CPU" l || at_kw "SPLIT" l
           then read (c, l) <- q_inst l;
                (* add_component, instr.py:119-122 *)
                if isin (c_name c) seen then None else read (cs, l) <- q_trace f (c_name c :: seen) l; Some (resolve seen c :: cs, l)
           else Some ([], l)
  end.
(** add_parameter, instr.py:124-128 *)
Fixpoint distinct (l : list string) : bool := match l with [] => true | x :: t => negb (isin x t) && distinct t end.
(** dependency, McCommon.g4:10 and instr/visitor.py:287-289 *)
Definition q_flags (l : list ltok) : option (list string * list ltok) :=
  match q_kw "DEPENDENCY" l with None => Some ([], l) | Some (LStr s :: t) => Some ([bare s], t) | Some _ => None end.
(** instrument_definition, McInstr.g4:20-26 *)
Definition q_instr (l : list ltok) : option ins :=
  read l <- q_kw "DEFINE" l; read l <- q_kw "INSTRUMENT" l; read (n, l) <- q_id l; read (ps, l) <- q_brackets q_par l;
  if negb (distinct (map p_name ps)) then None else
  read (ms, l) <- q_all "METADATA" q_meta l; read (fl, l) <- q_flags l;
  read (de, l) <- q_block "DECLARE" l; read (us, l) <- q_block "USERVARS" l; read (it, l) <- q_block "INITIALIZE" l;
  read l <- q_kw "TRACE" l; read (cs, l) <- q_trace (S (List.length l)) [] l;
  read (sv, l) <- q_block "SAVE" l; read (fi, l) <- q_block "FINALLY" l; read l <- q_kw "END" l;
  match l with [] => Some (mkIns n ps (fold_left add_meta ms []) fl de us it cs sv fi) | _ => None end.
(** prog, grammar/McInstr.g4:18, from the characters *)
Definition read_instr (s : string) : option ins := match lex s with Some l => q_instr l | None => None end.

(** * Facts *)
(** ** The budget of the reader of expressions is enough *)
Section Budget.
  Variable tb : table.
  Lemma consumed f :
    (forall mn ts n r, pexpr tb f mn ts = Some (n, r) -> List.length r < List.length ts)
    /\ (forall mn lhs ts n r, ploop tb f mn lhs ts = Some (n, r) -> List.length r <= List.length ts)
    /\ (forall ts es r, pargs tb f ts = Some (es, r) -> List.length r < List.length ts).
  Proof.
    induction f as [|f (IHe & IHl & IHa)]; [repeat split; discriminate|]. split; [|split].
    - intros mn ts n r E. destruct ts as [|t ts]; [discriminate|]. destruct t as [q|s|s|s| | | | | | | | |]; try discriminate.
      + rewrite e_num in E. destruct (Qc_ltb q 0); [discriminate|]. apply IHl in E. cbn. lia.
      + rewrite e_str in E. apply IHl in E. cbn. lia.
      + assert (Leaf : ploop tb f mn (leaf s) ts = Some (n, r) -> List.length r < S (List.length ts)) by (intro X; apply IHl in X; lia).
        destruct ts as [|[q|s2|s2|s2| | | | | | | | |] ts]; try exact (Leaf E).
        * rewrite e_call in E. destruct (pargs tb f ts) as [[args r']|] eqn:A; [|discriminate]. apply IHa in A. apply IHl in E. cbn. lia.
        * rewrite e_item in E. destruct (pexpr tb f 0 ts) as [[e r']|] eqn:A; [|discriminate]. destruct r' as [|[] r']; try discriminate. apply IHe in A. apply IHl in E. cbn in *. lia.
        * destruct ts as [|[] ts]; try exact (Leaf E). rewrite e_struct in E. apply IHl in E. cbn. lia.
        * destruct ts as [|[] ts]; try exact (Leaf E). rewrite e_ptr in E. apply IHl in E. cbn. lia.
      + rewrite Print.e_op in E. destruct (pinfo tb s) as [[op pm]|]; [|discriminate]. destruct (pexpr tb f pm ts) as [[e r']|] eqn:A; [|discriminate]. apply IHe in A. apply IHl in E. cbn. lia.
      + rewrite e_group in E. destruct (pexpr tb f 0 ts) as [[e r']|] eqn:A; [|discriminate]. destruct r' as [|[] r']; try discriminate. apply IHe in A. apply IHl in E. cbn in *. lia.
    - intros mn lhs ts n r E. destruct ts as [|t ts]; [injection E as <- <-; lia|].
      assert (Stop : Some (lhs, t :: ts) = Some (n, r) -> List.length r <= List.length (t :: ts)) by (intro X; injection X as <- <-; lia).
      destruct t as [q|s|s|s| | | | | | | | |]; try exact (Stop E).
      + rewrite l_op in E. destruct (binfo tb s) as [[[op p] rm]|]; [|exact (Stop E)]. destruct (mn <=? p); [|exact (Stop E)].
        destruct (pexpr tb f rm ts) as [[e r']|] eqn:A; [|discriminate]. apply IHe in A. apply IHl in E. cbn. lia.
      + rewrite l_tri in E. destruct (mn <=? tlevel tb); [|exact (Stop E)]. destruct (pexpr tb f 0 ts) as [[x r']|] eqn:A; [|discriminate].
        destruct r' as [|[] r']; try discriminate. destruct (pexpr tb f (tlast tb) r') as [[y r'']|] eqn:A2; [|discriminate]. apply IHe in A, A2. apply IHl in E. cbn in *. lia.
    - intros ts es r E. rewrite a_eq in E. destruct (pexpr tb f 0 ts) as [[e r']|] eqn:A; [|discriminate]. apply IHe in A. destruct r' as [|[] r']; try discriminate.
      + injection E as <- <-. cbn in A. lia.
      + destruct (pargs tb f r') as [[es' r'']|] eqn:A2; [|discriminate]. injection E as <- <-. apply IHa in A2. cbn in A. lia.
  Qed.
  Lemma enough f :
    (forall mn ts x, pexpr tb f mn ts = Some x -> forall g, 2 * List.length ts + 1 <= g -> pexpr tb g mn ts = Some x)
    /\ (forall mn lhs ts x, ploop tb f mn lhs ts = Some x -> forall g, 2 * List.length ts + 1 <= g -> ploop tb g mn lhs ts = Some x)
    /\ (forall ts x, pargs tb f ts = Some x -> forall g, 2 * List.length ts + 2 <= g -> pargs tb g ts = Some x).
  Proof.
    induction f as [|f (IHe & IHl & IHa)]; [repeat split; discriminate|]. destruct (consumed f) as (Ce & Cl & Ca). split; [|split].
    - intros mn ts x E [|g] G; [lia|]. destruct ts as [|t ts]; [discriminate|]. cbn [List.length] in G. destruct t as [q|s|s|s| | | | | | | | |]; try discriminate.
      + rewrite e_num in *. destruct (Qc_ltb q 0); [discriminate|]. apply IHl; [exact E|lia].
      + rewrite e_str in *. apply IHl; [exact E|lia].
      + assert (Leaf : ploop tb f mn (leaf s) ts = Some x -> ploop tb g mn (leaf s) ts = Some x) by (intro X; apply IHl; [exact X|lia]).
        destruct ts as [|[q|s2|s2|s2| | | | | | | | |] ts]; try exact (Leaf E); cbn [List.length] in G.
        * rewrite e_call in *. destruct (pargs tb f ts) as [[args r']|] eqn:A; [|discriminate]. rewrite (IHa _ _ A) by lia. apply Ca in A. apply IHl; [exact E|lia].
        * rewrite e_item in *. destruct (pexpr tb f 0 ts) as [[e r']|] eqn:A; [|discriminate]. rewrite (IHe _ _ _ A) by lia. apply Ce in A. destruct r' as [|[] r']; try discriminate. cbn in A. apply IHl; [exact E|lia].
        * destruct ts as [|[] ts]; try exact (Leaf E). rewrite e_struct in *. cbn in G. apply IHl; [exact E|lia].
        * destruct ts as [|[] ts]; try exact (Leaf E). rewrite e_ptr in *. cbn in G. apply IHl; [exact E|lia].
      + rewrite Print.e_op in *. destruct (pinfo tb s) as [[op pm]|]; [|discriminate]. destruct (pexpr tb f pm ts) as [[e r']|] eqn:A; [|discriminate]. rewrite (IHe _ _ _ A) by lia. apply Ce in A. apply IHl; [exact E|lia].
      + rewrite e_group in *. destruct (pexpr tb f 0 ts) as [[e r']|] eqn:A; [|discriminate]. rewrite (IHe _ _ _ A) by lia. apply Ce in A. destruct r' as [|[] r']; try discriminate. cbn in A. apply IHl; [exact E|lia].
    - intros mn lhs ts x E [|g] G; [lia|]. destruct ts as [|t ts]; [exact E|]. cbn [List.length] in G. destruct t as [q|s|s|s| | | | | | | | |]; try exact E.
      + rewrite l_op in *. destruct (binfo tb s) as [[[op p] rm]|]; [|exact E]. destruct (mn <=? p); [|exact E].
        destruct (pexpr tb f rm ts) as [[e r']|] eqn:A; [|discriminate]. rewrite (IHe _ _ _ A) by lia. apply Ce in A. apply IHl; [exact E|lia].
      + rewrite l_tri in *. destruct (mn <=? tlevel tb); [|exact E]. destruct (pexpr tb f 0 ts) as [[y r']|] eqn:A; [|discriminate]. rewrite (IHe _ _ _ A) by lia. apply Ce in A.
        destruct r' as [|[] r']; try discriminate. cbn in A. destruct (pexpr tb f (tlast tb) r') as [[z r'']|] eqn:A2; [|discriminate]. rewrite (IHe _ _ _ A2) by lia. apply Ce in A2. apply IHl; [exact E|lia].
    - intros ts x E [|g] G; [lia|]. rewrite a_eq in *. destruct (pexpr tb f 0 ts) as [[e r']|] eqn:A; [|discriminate]. rewrite (IHe _ _ _ A) by lia. apply Ce in A. destruct r' as [|[] r']; try discriminate; auto.
      cbn in A. destruct (pargs tb f r') as [[es r'']|] eqn:A2; [|discriminate]. rewrite (IHa _ _ A2) by lia. exact E.
  Qed.
End Budget.
