(** Writing component instances and reading them back: Instance.to_file,
    instr/instance.py:40-71 and 249-255, Jump.to_file, instr/jump.py:13-22,
    MetaData.to_file, common/metadata.py:42-43; the grammar rules component_instance,
    when, place, orientation, groupref, extend, jump of grammar/McInstr.g4:63-112, and
    the visitor, instr/visitor.py:109-160, 230-251, 330-347.

    Text is a list of tokens: the lexer and the spaces between tokens are not modelled,
    an expression is one token (its own text is the subject of Print.v), a block is its
    content between the percent braces. *)
From Coq Require Import List String Ascii Bool Arith ZArith QArith Qcanon Lia.
From Verif Require Import PyStr Expr InstrModel.
Import ListNotations.
Local Open Scope string_scope.
Local Open Scope list_scope.

(** the tokens of the grammar as far as needed, grammar/McInstr.g4:63-112 *)
Inductive tok :=
| K (kw : string)        (* keyword *)
| I (s : string)         (* identifier *)
| P (s : string)         (* punctuation *)
| E (e : node)           (* expression *)
| N (n : nat)            (* integer literal *)
| L (s : string)         (* string literal, content *)
| B (s : string).        (* %{ content %} *)

(** the fields of an instance that the text is about *)
Record ci := mkCi {
  c_name : string; c_type : string; c_params : list (string * node);
  c_removable : bool; c_cpu : bool; c_split : option node; c_when : option node;
  c_at : triple; c_at_rel : option string; c_rot : triple; c_rot_rel : option string;
  c_group : option string; c_extend : list string; c_jump : list jump;
  c_meta : list (string * string * string) }.      (* mime type, name, value *)

Definition newline : string := String (ascii_of_nat 10) "".

(** * Writing *)
Definition null1 (n : node) : bool := match is_zero n with Ok b => b | _ => false end.
(** Vector.is_null and Angles.is_null, instr/orientation.py:126-127, 150-151 *)
Definition is_null (t : triple) : bool := let '(x, y, z) := t in null1 x && null1 y && null1 z.
(** _triplet_ref_str, instance.py:249-255 *)
Definition w_triple (t : triple) : list tok := let '(x, y, z) := t in [P "("; E x; P ","; E y; P ","; E z; P ")"].
(** instr/instance.py:249-255 *)
Definition w_clause (kw : string) (t : triple) (r : option string) (required : bool) : list tok :=
  if is_null t && (match r with None => true | _ => false end) && negb required then []
  else K kw :: w_triple t ++ match r with None => [K "ABSOLUTE"] | Some n => [K "RELATIVE"; I n] end.
(** instr/instance.py:44 *)
Fixpoint w_params (l : list (string * node)) : list tok :=
  match l with
  | [] => []
  | [(n, e)] => [I n; P "="; E e]
  | (n, e) :: t => [I n; P "="; E e; P ","] ++ w_params t
  end.
(** how the lexer reads a bare word *)
Definition word (s : string) : tok :=
  if (s =? "PREVIOUS") || (s =? "NEXT") || (s =? "MYSELF") then K s else I s.
(** Jump.to_file, jump.py:13-22 *)
Definition w_jump (j : jump) : list tok :=
  let n := j_target j in
  let n := if has_char "_" n && (startswith "PREVIOUS" n || startswith "NEXT" n)
           then match split_char "_" n with x :: _ => x | [] => n end else n in
  [K "JUMP"; word n] ++ (if (1 <? Z.abs (j_rel j))%Z then [P "("; N (Z.abs_nat (j_rel j)); P ")"] else [])
  ++ [K (if j_iter j then "ITERATE" else "WHEN"); E (j_cond j)].
(** metadata_group, textwrap.py:146-147: a name with a space carries its own quotes *)
Definition unquote (s : string) : option string :=
  match s with
  | String """" t => if endswith """" t then Some (substring 0 (String.length t - 1) t) else None
  | _ => None
  end.
(** common/metadata.py:42-43 *)
Definition w_meta (m : string * string * string) : list tok :=
  let '(mime, n, v) := m in
  [K "METADATA"; L mime; match unquote n with Some s => L s | None => I n end; B (newline ++ v ++ newline)%string].
(** Instance.to_file, instance.py:40-71; TextWrapper.block, textwrap.py:134-135 *)
Definition w_inst (c : ci) : list tok :=
  (if c_cpu c then [K "CPU"] else []) ++
  [K "COMPONENT"; I (c_name c); P "="; I (c_type c); P "("] ++ w_params (c_params c) ++ [P ")"] ++
  match c_when c with Some e => [K "WHEN"; E e] | None => [] end ++
  w_clause "AT" (c_at c) (c_at_rel c) true ++ w_clause "ROTATED" (c_rot c) (c_rot_rel c) false ++
  match c_group c with Some g => [K "GROUP"; I g] | None => [] end ++
  match c_extend c with
  | [] => []
  | l => [K "EXTEND"; B (newline ++ newline ++ join newline l ++ newline)%string]
  end ++
  flat_map w_jump (c_jump c) ++ flat_map w_meta (c_meta c).

(** * Reading *)
Definition p_kw (k : string) (l : list tok) : option (list tok) :=
  match l with K k' :: t => if k' =? k then Some t else None | _ => None end.
(** an optional keyword *)
Definition opt_kw (k : string) (l : list tok) : bool * list tok :=
  match p_kw k l with Some t => (true, t) | None => (false, l) end.
(** coords, grammar/McInstr.g4:99-100 *)
Definition p_triple (l : list tok) : option (triple * list tok) :=
  match l with
  | P "(" :: E x :: P "," :: E y :: P "," :: E z :: P ")" :: t => Some ((x, y, z), t)
  | _ => None
  end.
(** reference, grammar/McInstr.g4:99-100 *)
Definition p_reference (l : list tok) : option (option string * list tok) :=
  match l with
  | K "ABSOLUTE" :: t => Some (None, t)
  | K "RELATIVE" :: K "ABSOLUTE" :: t => Some (None, t)
  | K "RELATIVE" :: I n :: t => Some (Some n, t)
  | _ => None
  end.
(** place and orientation, grammar/McInstr.g4:99-100 *)
Definition p_clause (k : string) (l : list tok) : option (triple * option string * list tok) :=
  match p_kw k l with
  | Some l1 => match p_triple l1 with
               | Some (v, l2) => match p_reference l2 with Some (r, l3) => Some (v, r, l3) | None => None end
               | None => None
               end
  | None => None
  end.
(** instance_parameters, grammar/McInstr.g4:87-93 *)
Fixpoint p_params (l : list tok) : option (list (string * node) * list tok) :=
  match l with
  | P ")" :: t => Some ([], t)
  | I n :: P "=" :: E e :: P ")" :: t => Some ([(n, e)], t)
  | I n :: P "=" :: E e :: P "," :: t => match p_params t with Some (q, r) => Some ((n, e) :: q, r) | None => None end
  | _ => None
  end.
(** jumpname and its visitors, instr/visitor.py:239-251.  With a count, int is called on a node of the parse tree (241, 248), for
    which Python raises TypeError: no result. *)
Definition p_jumpname (l : list tok) : option (string * Z * list tok) :=
  match l with
  | K "PREVIOUS" :: P "(" :: _ => None
  | K "PREVIOUS" :: t => Some ("PREVIOUS", (-1)%Z, t)
  | K "NEXT" :: P "(" :: _ => None
  | K "NEXT" :: t => Some ("NEXT", 1%Z, t)
  | K "MYSELF" :: t => Some ("MYSELF", 0%Z, t)
  | I s :: t => Some (s, 0%Z, t)
  | _ => None
  end.
(** jump, grammar/McInstr.g4:103 *)
Definition p_jump (l : list tok) : option (jump * list tok) :=
  match p_kw "JUMP" l with
  | Some l1 =>
      match p_jumpname l1 with
      | Some (n, r, K k :: E e :: t) =>
          if k =? "WHEN" then Some (mkJump n r false e, t)
          else if k =? "ITERATE" then Some (mkJump n r true e, t) else None
      | _ => None
      end
  | None => None
  end.
(** jump+ and metadata star, greedy *)
Fixpoint p_jumps (fuel : nat) (l : list tok) : option (list jump * list tok) :=
  match fuel with
  | O => None
  | S fuel =>
      match p_kw "JUMP" l with
      | None => Some ([], l)
      | Some _ => match p_jump l with
                  | Some (j, t) => match p_jumps fuel t with Some (q, r) => Some (j :: q, r) | None => None end
                  | None => None
                  end
      end
  end.
(** partial_from_tokens, metadata.py:45-54: a name with a space gets quotes *)
Definition requote (s : string) : string := if has_char " " s then ("""" ++ s ++ """")%string else s.
(** the metadata at the end of an instance, grammar/McInstr.g4:65 *)
Fixpoint p_metas (fuel : nat) (l : list tok) : option (list (string * string * string) * list tok) :=
  match fuel with
  | O => None
  | S fuel =>
      match l with
      | K "METADATA" :: L mime :: L n :: B v :: t =>
          match p_metas fuel t with Some (q, r) => Some ((mime, requote n, v) :: q, r) | None => None end
      | K "METADATA" :: L mime :: I n :: B v :: t =>
          match p_metas fuel t with Some (q, r) => Some ((mime, n, v) :: q, r) | None => None end
      | K "METADATA" :: _ => None
      | _ => Some ([], l)
      end
  end.
(** Instance.add_metadata, instance.py:215-218: a later one replaces those of the same name *)
Definition m_name (m : string * string * string) : string := snd (fst m).
(** instr/instance.py:215-218: a later entry replaces an earlier one of the same name *)
Definition add_meta (l : list (string * string * string)) (m : string * string * string) : list (string * string * string) :=
  filter (fun x => negb (m_name x =? m_name m)) l ++ [m].
(** Expr.int(0), the rotation without ROTATED *)
Definition int0 : node := NExpr [NVal (PNum 0%Qc) DInt OValue].
(** blocks_to_raw_c drops blocks of only spaces, tabs and newlines, block.py:14-17, 48-52 *)
Definition blank_char (c : ascii) : bool :=
  Ascii.eqb c " " || Ascii.eqb c (ascii_of_nat 9) || Ascii.eqb c (ascii_of_nat 10).
(** a text of blanks only *)
Fixpoint blank (s : string) : bool := match s with EmptyString => true | String c t => blank_char c && blank t end.
(** SPLIT with or without a count, instr/visitor.py:209-210 *)
Definition p_split (l : list tok) : option node * list tok :=
  match p_kw "SPLIT" l with
  | None => (None, l)
  | Some (E e :: t) => (Some e, t)
  | Some t => (Some (NExpr [NVal (PNum (Q2Qc 10%Q)) DInt OValue]), t)
  end.
(** when, grammar/McInstr.g4:98 *)
Definition p_when (l : list tok) : option (option node * list tok) :=
  match p_kw "WHEN" l with
  | None => Some (None, l)
  | Some (E e :: t) => Some (Some e, t)
  | Some _ => None
  end.
(** without ROTATED: no rotation, relative to the reference of AT, instr/visitor.py:120-125 *)
Definition p_rotated (ar : option string) (l : list tok) : option (triple * option string * list tok) :=
  match p_kw "ROTATED" l with
  | None => Some ((int0, int0, int0), ar, l)
  | Some _ => p_clause "ROTATED" l
  end.
(** groupref, grammar/McInstr.g4:101 *)
Definition p_group (l : list tok) : option (option string * list tok) :=
  match p_kw "GROUP" l with
  | None => Some (None, l)
  | Some (I g :: t) => Some (Some g, t)
  | Some _ => None
  end.
(** extend, grammar/McInstr.g4:112 *)
Definition p_extend (l : list tok) : option (list string * list tok) :=
  match p_kw "EXTEND" l with
  | None => Some ([], l)
  | Some (B b :: t) => Some (if blank b then [] else [b], t)
  | Some _ => None
  end.
(** grammar/McInstr.g4:64 *)
Definition p_head (l : list tok) : option (string * string * list tok) :=
  match l with
  | K "COMPONENT" :: I n :: P "=" :: I ty :: P "(" :: l => Some (n, ty, l)
  | _ => None
  end.
Local Notation "'read' p <- e ; f" := (match e with Some p => f | None => None end) (at level 200, p pattern, e at level 100, f at level 200).
(** component_instance and visitComponent_instance *)
Definition p_inst (l : list tok) : option (ci * list tok) :=
  let '(rm, l) := opt_kw "REMOVABLE" l in
  let '(cpu, l) := opt_kw "CPU" l in
  let '(sp, l) := p_split l in
  read (n, ty, l) <- p_head l;
  read (ps, l) <- p_params l;
  read (wh, l) <- p_when l;
  read (at_, ar, l) <- p_clause "AT" l;
  read (rot, rr, l) <- p_rotated ar l;
  read (g, l) <- p_group l;
  read (ex, l) <- p_extend l;
  read (js, l) <- p_jumps (S (List.length l)) l;
  read (ms, l) <- p_metas (S (List.length l)) l;
  Some (mkCi n ty ps rm cpu sp wh at_ ar rot rr g ex js (fold_left add_meta ms []), l).
(** component_instance repeated, until something else follows *)
Fixpoint p_trace (fuel : nat) (l : list tok) : option (list ci * list tok) :=
  match fuel with
  | O => None
  | S fuel =>
      match l with
      | K k :: _ =>
          if (k =? "COMPONENT") || (k =? "REMOVABLE") || (k =? "CPU") || (k =? "SPLIT")
          then match p_inst l with
               | Some (c, t) => match p_trace fuel t with Some (q, r) => Some (c :: q, r) | None => None end
               | None => None
               end
          else Some ([], l)
      | _ => Some ([], l)
      end
  end.
