(** Instruments and component instances as data: instr/instr.py, instr/instance.py,
    instr/group.py, instr/jump.py, common/metadata.py, common/parameters.py.

    Simplifications: a component type is represented by its name and parameter lists; a
    reference to another instance is represented by that instance's name (Python holds
    the object); an orientation is represented by the list of expressions occurring in
    its parts; C text blocks (RawC) by their source text. *)
From Coq Require Import List String Ascii Bool Arith ZArith Lia.
From Verif Require Import PyStr Expr ExprEq.
Import ListNotations.
Local Open Scope string_scope.
Local Open Scope list_scope.

(** MetaData, common/metadata.py:36-42; the source is kept as its name *)
Record meta := mkMeta { m_source : string; m_name : string; m_mime : string; m_value : string }.
(** ComponentParameter / InstrumentParameter, common/parameters.py *)
Record cpar := mkCpar { cp_name : string; cp_value : node }.
(** InstrumentParameter, common/parameters.py:7-10 *)
Record ipar := mkIpar { ip_name : string; ip_unit : option string; ip_value : node }.
(** Comp, comp/comp.py:8-33, restricted to what instruments use *)
Record ctype := mkCtype { ct_name : string; ct_define : list cpar; ct_setting : list cpar; ct_meta : list meta; ct_acc : bool }.
(** Jump, instr/jump.py:5-11 *)
Record jump := mkJump { j_target : string; j_rel : Z; j_iter : bool; j_cond : node }.

(** Vector and Angles, instr/orientation.py:90-93, 136-139 *)
Definition triple : Type := (node * node * node)%type.
(** Instance, instr/instance.py:14-33, fields in the order of the dataclass *)
Record inst := mkInst {
  i_name : string; i_type : ctype;
  i_at : triple; i_at_rel : option string;
  i_rot : triple; i_rot_rel : option string;
  i_orient : list node;
  i_params : list cpar;
  i_removable : bool; i_cpu : bool;
  i_split : option node; i_when : option node;
  i_group : option string;
  i_extend : list string; i_jump : list jump; i_meta : list meta }.
(** Group, instr/group.py:4-13; members are kept as positions only *)
Record group := mkGroup { g_index : nat; g_ids : list nat }.
(** Instr, instr/instr.py:14-34; dict as association list in insertion order *)
Record instr := mkInstr {
  s_name : string; s_params : list ipar; s_meta : list meta; s_comps : list inst;
  s_user : list string; s_declare : list string; s_init : list string; s_save : list string; s_final : list string;
  s_groups : list (string * group); s_flags : list string }.
(** Instr(name), instr/instr.py:15-34 *)
Definition empty_instr (n : string) : instr := mkInstr n [] [] [] [] [] [] [] [] [] [].

(** assignment to Instr.components *)
Definition with_comps (s : instr) (l : list inst) : instr :=
  mkInstr (s_name s) (s_params s) (s_meta s) l (s_user s) (s_declare s) (s_init s) (s_save s) (s_final s) (s_groups s) (s_flags s).
(** assignment to Instr.parameters *)
Definition with_params (s : instr) (l : list ipar) : instr :=
  mkInstr (s_name s) l (s_meta s) (s_comps s) (s_user s) (s_declare s) (s_init s) (s_save s) (s_final s) (s_groups s) (s_flags s).
(** assignment to Instr.metadata *)
Definition with_meta (s : instr) (l : list meta) : instr :=
  mkInstr (s_name s) (s_params s) l (s_comps s) (s_user s) (s_declare s) (s_init s) (s_save s) (s_final s) (s_groups s) (s_flags s).
(** assignment to Instr.groups *)
Definition with_groups (s : instr) (l : list (string * group)) : instr :=
  mkInstr (s_name s) (s_params s) (s_meta s) (s_comps s) (s_user s) (s_declare s) (s_init s) (s_save s) (s_final s) l (s_flags s).

(** * Components *)
(** has_component_named, instr.py:160 *)
Definition has_named (l : list inst) (n : string) : bool := existsb (fun x => i_name x =? n) l.
(** add_component, instr.py:119-122 *)
Definition add_component (s : instr) (a : inst) : res instr :=
  if existsb (fun x => i_name x =? i_name a) (s_comps s) then Raise
  else Ok (with_comps s (s_comps s ++ [a])).
(** get_component, instr.py:152-158; components[-1] of an empty tuple raises *)
Definition get_component (l : list inst) (n : string) : res inst :=
  if n =? "PREVIOUS" then match rev l with x :: _ => Ok x | [] => Raise end
  else match find (fun x => i_name x =? n) l with Some x => Ok x | None => Raise end.
(** l[-count] for a Python tuple: counts from the end, and -0 is 0 *)
Definition py_neg_index {A} (l : list A) (count : nat) : res A :=
  match (if count =? 0 then nth_error l 0 else nth_error (rev l) (count - 1))%nat with
  | Some x => Ok x
  | None => Raise
  end.
(** last_component, instr.py:140-150 *)
Definition last_component (l : list inst) (count : nat) (removable_ok : bool) : res inst :=
  if (List.length l <? count)%nat then Raise
  else if removable_ok then py_neg_index l count
  else let fixed := filter (fun c => negb (i_removable c)) l in
       if (List.length fixed <? count)%nat then Raise else py_neg_index fixed count.

(** * Instrument parameters *)
(** parameter_name_present, common/parameters.py:78-80 *)
Definition ipar_present (l : list ipar) (n : string) : bool := existsb (fun x => n =? ip_name x) l.
(** parameter_name_present, common/parameters.py *)
Definition cpar_present (l : list cpar) (n : string) : bool := existsb (fun x => n =? cp_name x) l.
(** add_parameter, instr.py:124-128 *)
Definition add_parameter (s : instr) (a : ipar) (ignore_repeated : bool) : res instr :=
  if negb (ipar_present (s_params s) (ip_name a)) then Ok (with_params s (s_params s ++ [a]))
  else if negb ignore_repeated then Raise else Ok s.
(** get_parameter, instr.py:130-135 *)
Definition get_parameter (s : instr) (n : string) : option ipar :=
  if ipar_present (s_params s) n then find (fun p => n =? ip_name p) (s_params s) else None.

(** * Metadata *)
(** add_metadata: instr.py:195-198, instance.py:215-218, comp.py:106-109 *)
Definition add_metadata (l : list meta) (m : meta) : list meta :=
  (if existsb (fun x => m_name x =? m_name m) l then filter (fun x => negb (m_name x =? m_name m)) l else l) ++ [m].
(** assignment to a key of a Python dict kept as (key, value) pairs in insertion order *)
Fixpoint dict_set {A} (d : list (string * A)) (k : string) (v : A) : list (string * A) :=
  match d with
  | [] => [(k, v)]
  | (k', v') :: t => if k' =? k then (k', v) :: t else (k', v') :: dict_set t k v
  end.
(** d.get(k) *)
Fixpoint dict_get {A} (d : list (string * A)) (k : string) : option A :=
  match d with
  | [] => None
  | (k', v) :: t => if k' =? k then Some v else dict_get t k
  end.
(** dict of pairs, added to a dict *)
Definition dict_of {A} (l : list (string * A)) (d : list (string * A)) : list (string * A) :=
  fold_left (fun d p => dict_set d (fst p) (snd p)) l d.
(** m.name: m for m in ..., instr/instance.py:223-224 *)
Definition keyed (l : list meta) : list (string * meta) := map (fun m => (m_name m, m)) l.
(** Instance.collect_metadata, instance.py:220-225 *)
Definition inst_collect (i : inst) : list meta :=
  map snd (dict_of (keyed (i_meta i)) (dict_of (keyed (ct_meta (i_type i))) [])).
(** Instr.collect_metadata, instr.py:213-217 *)
Definition collect_metadata (s : instr) : list meta :=
  flat_map inst_collect (s_comps s) ++ s_meta s.

(** * Groups *)
(** one pass of the loop of determine_groups, instr.py:200-205; an empty group name is
    falsy *)
Definition group_step (gs : list (string * group)) (id : nat) (g : option string) : list (string * group) :=
  match g with
  | None | Some "" => gs
  | Some n =>
      let gs' := match dict_get gs n with
                 | Some _ => gs
                 | None => dict_set gs n (mkGroup (List.length gs) [])
                 end in
      match dict_get gs' n with
      | Some gr => dict_set gs' n (mkGroup (g_index gr) (g_ids gr ++ [id]))
      | None => gs'
      end
  end.
(** instr/instr.py:200-205 *)
Fixpoint groups_from (gs : list (string * group)) (id : nat) (l : list (option string)) : list (string * group) :=
  match l with
  | [] => gs
  | g :: t => groups_from (group_step gs id g) (S id) t
  end.
(** instr/instr.py:200-205 *)
Definition determine_groups (s : instr) : instr :=
  with_groups s (groups_from (s_groups s) 0 (map i_group (s_comps s))).
(** Group.is_leader, first_id, last_id, group.py:15-24; min and max of an empty list raise *)
Definition is_leader (g : group) (i : nat) : bool :=
  match g_ids g with [] => false | x :: _ => (x =? i)%nat end.
(** instr/group.py:19-20 *)
Definition first_id (g : group) : res nat :=
  match g_ids g with [] => Raise | x :: t => Ok (fold_left Nat.min t x) end.
(** instr/group.py:23-24 *)
Definition last_id (g : group) : res nat :=
  match g_ids g with [] => Raise | x :: t => Ok (fold_left Nat.max t x) end.

(** * Instance parameters *)
(** Comp.get_parameter, comp.py:42-47 *)
Definition ct_get (c : ctype) (n : string) : option cpar :=
  match find (fun p => cp_name p =? n) (ct_define c) with
  | Some p => Some p
  | None => find (fun p => cp_name p =? n) (ct_setting c)
  end.
Section SetParameter.
  (** ComponentParameter.compatible_value and the conversion of the given value to an
      expression, instance.py:127-139: arbitrary functions of the definition's parameter
      and the value; the conversion may raise (Expr.parse) *)
  Variable V : Type.
  Variable compatible : cpar -> V -> bool.
  Variable convert : cpar -> V -> res node.

  (** the state after the call, and whether it raised: an exception leaves whatever was
      assigned before it.  instance.py:115-152 *)
  Definition set_parameter (c : ctype) (ps : list cpar) (n : string) (v : V) (overwrite allow_repeated : bool)
    : list cpar * bool :=
    if negb (cpar_present (ct_define c) n) && negb (cpar_present (ct_setting c) n) then (ps, false)
    else if cpar_present ps n && negb overwrite && negb allow_repeated then (ps, false)
    else
      let ps' := if cpar_present ps n && overwrite then filter (fun x => negb (n =? cp_name x)) ps else ps in
      match ct_get c n with
      | None => (ps', false)
      | Some p =>
          if negb (compatible p v) then (ps', false)
          else match convert p v with
               | Ok e => (ps' ++ [mkCpar (cp_name p) e], true)
               | _ => (ps', false)
               end
      end.
  (** Instance.get_parameter, instance.py:162-166 *)
  Definition inst_get (c : ctype) (ps : list cpar) (n : string) : option cpar :=
    match find (fun p => cp_name p =? n) ps with Some p => Some p | None => ct_get c n end.
End SetParameter.

(** * make_instance, instr.py:380-392 *)
(** the Instance constructor called with positional arguments in dataclass order; the
    orientation, when missing, comes from [place]; instance.py __post_init__ 111-113 sets cpu *)
Section Make.
  Variable place : triple -> option string -> triple -> option string -> list node.
  (** a Python value passed for a bool field: None and False are falsy *)
  Definition truthy_opt (g : option string) : bool :=
    match g with None => false | Some s => negb (s =? "") end.
  (** instr/instr.py:380-392 *)
  Definition make_instance (s : instr) (n : string) (c : ctype) (at_ : triple) (ar : option string)
      (rot : triple) (rr : option string) (orientation : option (list node)) (params : list cpar)
      (group : option string) (removable : bool) : res instr :=
    if existsb (fun x => i_name x =? n) (s_comps s) then Raise
    else
      let o := match orientation with Some o => o | None => place at_ ar rot rr end in
      (* positional: ..., parameters, removable := group, cpu := removable *)
      let cpu := if negb (ct_acc c) then true else removable in
      Ok (with_comps s (s_comps s ++
        [mkInst n c at_ ar rot rr o params (truthy_opt group) cpu None None None [] [] []])).
End Make.

(** * Uses of instrument parameters *)
(** RawC.__contains__, block.py:45-46 *)
Definition block_has (n : string) (b : string) : bool := PyStr.contains n b.
(** name in expression, if there is one, instr/instance.py *)
Definition opt_has (n : string) (e : option node) : bool := match e with Some e => ExprEq.contains n e | None => false end.
(** instr/orientation.py:132-133, 156-157 *)
Definition triple_has (n : string) (t : triple) : bool :=
  let '(x, y, z) := t in ExprEq.contains n x || ExprEq.contains n y || ExprEq.contains n z.
(** Instance.parameter_used, instance.py:233-246 *)
Definition inst_uses (n : string) (i : inst) : bool :=
  existsb (fun p => ExprEq.contains n (cp_value p)) (i_params i) ||
  (triple_has n (i_at i) || triple_has n (i_rot i) || existsb (ExprEq.contains n) (i_orient i)) ||
  (opt_has n (i_split i) || opt_has n (i_when i)) ||
  existsb (block_has n) (i_extend i) ||
  existsb (fun j => ExprEq.contains n (j_cond j)) (i_jump i).
(** Instr.parameter_used, instr.py:458-469 *)
Definition param_used (s : instr) (n : string) : bool :=
  existsb (inst_uses n) (s_comps s) ||
  existsb (block_has n) (s_declare s ++ s_init s ++ s_save s ++ s_final s).
(** check_instrument_parameters, instr.py:471-488 *)
Definition check_parameters (s : instr) (remove : bool) : instr * nat :=
  let used := map (fun p => param_used s (ip_name p)) (s_params s) in
  let s' := if negb (forallb (fun b => b) used) && remove
            then with_params s (map fst (filter snd (combine (s_params s) used))) else s in
  (s', List.length used - List.length (filter (fun b => b) used)).

(** * copy and split *)
(** l[first:last] of a Python tuple for 0 <= first, last *)
Definition py_slice {A} (l : list A) (first last : nat) : list A := skipn first (firstn last l).
(** Instr.copy, instr.py:307-325, with last already made non negative; the copied fields
    are immutable here *)
Definition copy_instr (s : instr) (first last : nat) : instr := with_comps s (py_slice (s_comps s) first last).
(** assignment to Instr.name *)
Definition with_name (s : instr) (n : string) : instr :=
  mkInstr n (s_params s) (s_meta s) (s_comps s) (s_user s) (s_declare s) (s_init s) (s_save s) (s_final s) (s_groups s) (s_flags s).

Section Split.
  (** Orient.position() and Orient.angles() of an instance, as expressions *)
  Variable abs_position abs_angles : inst -> triple.
  (** instr/instr.py:327-378: where the component is *)
  Definition positions (l : list inst) (n : string) : list nat :=
    map fst (filter (fun p => i_name (snd p) =? n) (combine (seq 0 (List.length l)) l)).
  (** instr/instr.py:327-378: a reference among the instances of the new instrument *)
  Definition relink (l : list inst) (r : string) : option string :=
    match get_component l r with Ok x => Some (i_name x) | _ => None end.
  (** the re-referencing loop, instr.py:361-374 *)
  Definition rereference (l : list inst) (i : inst) : inst :=
    let '(at_, ar) := match i_at_rel i with
                      | None => (i_at i, None)
                      | Some r => if has_named l r then (i_at i, relink l r) else (abs_position i, None)
                      end in
    let '(rot, rr) := match i_rot_rel i with
                      | None => (i_rot i, None)
                      | Some r => if has_named l r then (i_rot i, relink l r) else (abs_angles i, None)
                      end in
    mkInst (i_name i) (i_type i) at_ ar rot rr (i_orient i) (i_params i) (i_removable i) (i_cpu i) (i_split i) (i_when i)
           (i_group i) (i_extend i) (i_jump i) (i_meta i).
  (** Instr.split at a name, instr.py:327-378; [remove] is remove_unused_parameters *)
  Definition split_instr (s : instr) (at_ : string) (remove : bool) : res (instr * instr) :=
    match positions (s_comps s) at_ with
    | [index] =>
        let first := with_name (copy_instr s 0 (index + 1)) (s_name s ++ "_first")%string in
        let first := fst (check_parameters first remove) in
        let second := with_name (copy_instr s index (List.length (s_comps s))) (s_name s ++ "_second")%string in
        let second := with_comps second (map (rereference (s_comps second)) (s_comps second)) in
        let second := fst (check_parameters second remove) in
        Ok (first, second)
    | _ => Raise
    end.
End Split.
