(** What is read from an instrument file whose TRACE section includes other instrument files:
    instr/visitor.py:27-52 (the parts of a definition, in the order of grammar/McInstr.g4:20-26), instr/visitor.py:77-104 (%include),
    instr/visitor.py:109-157 (component instances), instr/visitor.py:287-304 (DEPENDENCY and blocks), instr/visitor.py:354-355 (SEARCH),
    instr/visitor.py:371-381 (PREVIOUS and MYSELF in expressions); instr/instr.py:119-128, 174-198 (adding to an instrument);
    common/block.py:14-17, 49-53; reader/reader.py:41-66 and 138-141 (what the reader keeps), 143-175 get_instrument;
    loader/loader.py:17-27 parse_mccode_instr.

    The parse tree is the input; an included file is given by its own parse tree in the place of its name, so files that
    include themselves (for which Python exceeds its recursion limit) are left out.  References between instances are those of
    Refs.v.  Everything of a parameter, of metadata and of a registry but its name is an arbitrary type.  SHELL and SEARCH SHELL
    are left out (they run programs).  Groups are determined afterwards (C20). *)
From Coq Require Import List String Bool Arith Lia Ascii.
From Verif Require Import PyStr Expr InstrModel Refs.
Import ListNotations.
Local Open Scope string_scope.
Local Open Scope list_scope.

(** the value of an instance parameter: some text, or the words PREVIOUS and MYSELF in an expression *)
Inductive pval := VText (s : string) | VPrev | VMyself.

(** RawC.is_empty, block.py:14-17 *)
Definition blank_char (c : ascii) : bool := Ascii.eqb c " " || Ascii.eqb c "009" || Ascii.eqb c "010".
(** common/block.py:14-17 *)
Fixpoint blank (s : string) : bool := match s with EmptyString => true | String c t => blank_char c && blank t end.
(** blocks_to_raw_c, block.py:49-53 *)
Definition blocks (l : list string) : list string := filter (fun b => negb (blank b)) l.

Section Incl.
Variables P M R : Type.
(** decimal digits *)
Variable dec : nat -> string.
(** reading a component type that is not known yet, with these registries and these known types: the types known afterwards in
    addition and the DEPENDENCY strings of their files (Reader.add_component, see Reader.v); None: an error *)
Variable definition : list R -> list string -> string -> option (list string * list string).
(** registries_match and registry_from_specification, registry.py:401-411 and 414-459 *)
Variable matches : R -> string -> bool.
Variable from_spec : string -> option R.

(** all of a file but its TRACE section *)
Record header := mkH { h_name : string; h_params : list (string * P); h_search : list string; h_metas : list (string * M);
  h_deps : list string; h_decl : list string; h_user : list string; h_init : list string; h_save : list string; h_final : list string }.
(** an item of a TRACE section, grammar/McInstr.g4:48 *)
Inductive titem := TComp (d : decl) (ps : list (string * pval)) | TSearch (s : string) | TIncl (h : header) (l : list titem).
(** the parts of Instr (instr.py:21-34) that reading a file fills; an instance with its parameters *)
Notation instance := (rinst * list (string * string))%type.
(** the instrument as far as it has been read, instr/instr.py:15-34 *)
Record st := mkS { params : list (string * P); metas : list (string * M); comps : list instance; included : list string;
  flags : list string; s_decl : list string; s_user : list string; s_init : list string; s_save : list string; s_final : list string }.
(** assignment to Instr.components *)
Definition with_comps (s : st) (c : list instance) : st :=
  mkS (params s) (metas s) c (included s) (flags s) (s_decl s) (s_user s) (s_init s) (s_save s) (s_final s).
(** Reader.components (only the names), c_flags and registries, reader.py:41-43 *)
Record rd := mkRd { seen : list string; c_flags : list string; regs : list R }.

(** Reader.get_component, reader.py:138-141 *)
Definition load (r : rd) (n : string) : res rd :=
  if existsb (fun x => x =?s n) (seen r) then Ok r
  else match definition (regs r) (seen r) n with
       | Some (new, fl) => Ok (mkRd (seen r ++ new) (c_flags r ++ fl) (regs r))
       | None => Raise
       end.
(** Reader.handle_search_keyword, reader.py:57-63 *)
Definition search (r : rd) (spec : string) : res rd :=
  if existsb (fun x => matches x spec) (regs r) then Ok r
  else match from_spec spec with Some x => Ok (mkRd (seen r) (c_flags r) (x :: regs r)) | None => Raise end.
(** reader/reader.py:57-63: SEARCH after SEARCH *)
Fixpoint searches (r : rd) (l : list string) : res rd :=
  match l with [] => Ok r | x :: t => match search r x with Ok r' => searches r' t | _ => Raise end end.

(** Instr.add_parameter, instr.py:124-128, without and with ignore_repeated *)
Definition has {A} (l : list (string * A)) (n : string) : bool := existsb (fun x => n =?s fst x) l.
(** instr/instr.py:124-128, one after the other *)
Fixpoint add_params (l : list (string * P)) (new : list (string * P)) : res (list (string * P)) :=
  match new with [] => Ok l | x :: t => if has l (fst x) then Raise else add_params (l ++ [x]) t end.
(** instr/instr.py:124-128 with ignore_repeated *)
Definition add_new (l : list (string * P)) (x : string * P) : list (string * P) := if has l (fst x) then l else l ++ [x].
(** Instr.add_metadata, instr.py:195-198 *)
Definition add_metadata (l : list (string * M)) (m : string * M) : list (string * M) :=
  (if has l (fst m) then filter (fun x : string * M => negb (fst x =?s fst m)) l else l) ++ [m].
(** Instr.add_component, instr.py:119-122, for the instances of an included file, instr/visitor.py:104-106 *)
Fixpoint add_comps (l : list instance) (new : list instance) : res (list instance) :=
  match new with
  | [] => Ok l
  | x :: t => if r_removable (fst x) then add_comps l t
              else if existsb (fun y => r_name (fst y) =?s r_name (fst x)) l then Raise else add_comps (l ++ [x]) t
  end.

(** the values of the instance parameters: instr/visitor.py:371-377 visitExpressionPrevious and 379-381 visitExpressionMyself; the attribute
    current_instance that the latter reads is set nowhere *)
Definition last_name (l : list rinst) : option string := match rev l with x :: _ => Some (r_name x) | [] => None end.
(** instr/visitor.py:371-381 *)
Definition value (dest : option (list rinst)) (l : list rinst) (v : pval) : res string :=
  match v with
  | VText s => Ok s
  | VPrev => match last_name l with
             | Some n => Ok n
             | None => match dest with Some d => match last_name d with Some n => Ok n | None => Raise end | None => Raise end
             end
  | VMyself => Raise
  end.
(** the parameters of an instance one after the other *)
Fixpoint values (dest : option (list rinst)) (l : list rinst) (ps : list (string * pval)) : res (list (string * string)) :=
  match ps with
  | [] => Ok []
  | (n, v) :: t => match value dest l v with
                   | Ok x => match values dest l t with Ok r => Ok ((n, x) :: r) | _ => Raise end
                   | _ => Raise
                   end
  end.
(** instr/visitor.py:109-157 visitComponent_instance *)
Definition component (dest : option (list rinst)) (c : list instance) (r : rd) (d : decl) (ps : list (string * pval)) : res (list instance * rd) :=
  match (match d_type d with TName n => load r n | TCopy _ => Ok r end) with
  | Ok r' =>
      match component_instance dec (fun _ => true) dest (map fst c) d with
      | Ok l => match values dest (map fst c) ps with
                | Ok v => Ok (c ++ map (fun x => (x, v)) (skipn (List.length c) l), r')
                | _ => Raise
                end
      | _ => Raise
      end
  | _ => Raise
  end.
(** a file up to its TRACE section, and its end *)
Definition start (h : header) (r : rd) : res (st * rd) :=
  match add_params [] (h_params h) with
  | Ok p => match searches r (h_search h) with
            | Ok r' => Ok (mkS p (fold_left add_metadata (h_metas h) []) [] [] (h_deps h) (blocks (h_decl h)) (blocks (h_user h)) (blocks (h_init h)) [] [], r')
            | _ => Raise
            end
  | _ => Raise
  end.
(** instr/visitor.py:27-52, the parts after TRACE *)
Definition finish (h : header) (s : st) : st :=
  mkS (params s) (metas s) (comps s) (included s) (flags s) (s_decl s) (s_user s) (s_init s) (s_save s ++ blocks (h_save h)) (s_final s ++ blocks (h_final h)).
(** instr/visitor.py:86-107 visitInstrument_trace_include, after the file was read *)
Definition merge (s : st) (name : string) (sub : st) : res st :=
  match add_comps (comps s) (comps sub) with
  | Ok c => Ok (mkS (fold_left add_new (params sub) (params s)) (fold_left add_metadata (metas sub) (metas s)) c (included s ++ [name]) (flags s)
      (s_decl s ++ s_decl sub) (s_user s ++ s_user sub) (s_init s ++ s_init sub) (s_save s ++ s_save sub) (s_final s ++ s_final sub))
  | _ => Raise
  end.
(** the TRACE section; an included file is read with the including instrument as destination (instr/visitor.py:85) *)
Fixpoint trace_item (dest : option (list rinst)) (s : st) (r : rd) (it : titem) {struct it} : res (st * rd) :=
  match it with
  | TComp d ps => match component dest (comps s) r d ps with Ok (c, r') => Ok (with_comps s c, r') | _ => Raise end
  | TSearch x => match search r x with Ok r' => Ok (s, r') | _ => Raise end
  | TIncl h l =>
      let here := map fst (comps s) in
      match start h r with
      | Ok (s0, r0) =>
          match (fix go (s : st) (r : rd) (l : list titem) : res (st * rd) :=
                   match l with
                   | [] => Ok (s, r)
                   | x :: t => match trace_item (Some here) s r x with Ok (s', r') => go s' r' t | _ => Raise end
                   end) s0 r0 l with
          | Ok (s1, r1) => match merge s (h_name h) (finish h s1) with Ok s2 => Ok (s2, r1) | _ => Raise end
          | _ => Raise
          end
      | _ => Raise
      end
  end.
(** instr/visitor.py:77-104 *)
Fixpoint trace (dest : option (list rinst)) (s : st) (r : rd) (l : list titem) : res (st * rd) :=
  match l with
  | [] => Ok (s, r)
  | x :: t => match trace_item dest s r x with Ok (s', r') => trace dest s' r' t | _ => Raise end
  end.
(** instr/visitor.py:27-52 *)
Definition file (dest : option (list rinst)) (r : rd) (h : header) (l : list titem) : res (st * rd) :=
  match start h r with
  | Ok (s0, r0) => match trace dest s0 r0 l with Ok (s1, r1) => Ok (finish h s1, r1) | _ => Raise end
  | _ => Raise
  end.
Lemma trace_incl dest s r h l : trace_item dest s r (TIncl h l) =
  match file (Some (map fst (comps s))) r h l with
  | Ok (sub, r1) => match merge s (h_name h) sub with Ok s2 => Ok (s2, r1) | _ => Raise end
  | _ => Raise
  end.
Proof.
  cbn [trace_item]. unfold file. destruct (start h r) as [[s0 r0]| |]; try reflexivity.
  set (here := map fst (comps s)).
  assert (E : forall l s r, (fix go (s : st) (r : rd) (l : list titem) : res (st * rd) :=
                   match l with
                   | [] => Ok (s, r)
                   | x :: t => match trace_item (Some here) s r x with Ok (s', r') => go s' r' t | _ => Raise end
                   end) s r l = trace (Some here) s r l).
  { intro l1. induction l1 as [|x t IH]; intros s1 r1; cbn [trace]; [reflexivity|]. destruct (trace_item (Some here) s1 r1 x) as [[s' r']| |]; auto. }
  rewrite E. now destruct (trace (Some here) s0 r0 l) as [[s1 r1]| |].
Qed.

(** ** The two ways to read a file *)
(** loader.py:17-27 parse_mccode_instr: the flags are those of the instrument and those of the reader, the registries are those that
    were given; [ordered]: reader.py:45-49 *)
Variable ordered : list R -> list R.
(** loader/loader.py:17-27 *)
Definition parse_mccode_instr (given : list R) (h : header) (l : list titem) : res (st * list R) :=
  match file None (mkRd [] [] (ordered given)) h l with
  | Ok (s, r) => Ok (mkS (params s) (metas s) (comps s) (included s) (flags s ++ c_flags r) (s_decl s) (s_user s) (s_init s) (s_save s) (s_final s), given)
  | _ => Raise
  end.
(** reader.py:143-175 get_instrument of a new reader: flags and registries are the reader's *)
Definition get_instrument (given : list R) (h : header) (l : list titem) : res (st * list R) :=
  match file None (mkRd [] [] (ordered given)) h l with
  | Ok (s, r) => Ok (mkS (params s) (metas s) (comps s) (included s) (c_flags r) (s_decl s) (s_user s) (s_init s) (s_save s) (s_final s), regs r)
  | _ => Raise
  end.
End Incl.
Arguments mkH {P M}. Arguments h_name {P M}. Arguments h_params {P M}. Arguments h_search {P M}. Arguments h_metas {P M}. Arguments h_deps {P M}.
Arguments h_decl {P M}. Arguments h_user {P M}. Arguments h_init {P M}. Arguments h_save {P M}. Arguments h_final {P M}.
Arguments TComp {P M}. Arguments TSearch {P M}. Arguments TIncl {P M}.
Arguments mkS {P M}. Arguments params {P M}. Arguments metas {P M}. Arguments comps {P M}. Arguments included {P M}. Arguments flags {P M}.
Arguments s_decl {P M}. Arguments s_user {P M}. Arguments s_init {P M}. Arguments s_save {P M}. Arguments s_final {P M}. Arguments with_comps {P M}.
Arguments mkRd {R}. Arguments seen {R}. Arguments c_flags {R}. Arguments regs {R}.
Arguments add_params {P}. Arguments add_new {P}. Arguments add_metadata {M}. Arguments merge {P M}. Arguments finish {P M}.
Arguments load {R}. Arguments search {R}. Arguments searches {R}. Arguments component {R}. Arguments start {P M R}.
Arguments trace_item {P M R}. Arguments trace {P M R}. Arguments file {P M R}. Arguments trace_incl {P M R}.
Arguments parse_mccode_instr {P M R}. Arguments get_instrument {P M R}.
