(** Copies of instruments and the parts of a split one, with the objects they share:
    Instr.copy, instr/instr.py:307-325, and Instr.split, 327-378, on instances that are objects:
    Instance, instr/instance.py:14-36, its copy 227-231 and __post_init__ 99-110;
    set_jump_absolute_targets, translators/target.py:219-230, on the jumps that instances share.
    An instance is a place in a list of objects, a reference to one is its place, and so is a
    jump.  Positions, angles, orientations and all else an instance holds are arbitrary values
    (the objects in them are never assigned to by the code modelled here).  Of an instrument only
    name and components are kept: parameters, blocks, metadata, flags and registries of a copy
    are copied by value, groups are treated in InstrModel. *)
From Coq Require Import List String Bool Arith ZArith Lia.
From Verif Require Import PyStr JumpTargets CopyInst.
Import ListNotations.
Local Open Scope string_scope.
Local Open Scope list_scope.
Local Open Scope nat_scope.

Section Objects.
  Variables (vec orient rest : Type).
  (** Orient.from_dependent_orientations, Orient.position and Orient.angles,
      instr/orientation.py:894-905 and 917-921: arbitrary functions *)
  Variable place : option orient -> vec -> option orient -> vec -> orient.
  Variables (position angles : orient -> vec).

  (** Instance, instance.py:14-36; [i_rest] is type, parameters, removable, cpu, split, when,
      group, extend and metadata; [i_minimal] is mode == Mode.minimal *)
  Record instance := mkI { i_name : string; i_at : vec; i_at_ref : option nat; i_rot : vec; i_rot_ref : option nat;
                           i_orient : option orient; i_rest : rest; i_jump : list nat; i_minimal : bool }.
  (** Instr, instr.py:14-34: its name and the places of its components *)
  Record instrument := mkS { s_name : string; s_comps : list nat }.
  (** all instances and all jumps there are *)
  Record heap := mkH { h_inst : list instance; h_jump : list obj }.

  (** ref.orientation, instance.py:107 and 109 *)
  Definition orient_of (h : list instance) (r : nat) : option orient :=
    match nth_error h r with Some x => i_orient x | None => None end.
  (** __post_init__, instance.py:99-110 *)
  Definition post_init (h : list instance) (x : instance) : instance :=
    match i_minimal x, i_orient x with
    | false, None =>
        let ar := match i_at_ref x with Some r => orient_of h r | None => None end in
        let rr := match i_rot_ref x with Some r => orient_of h r | None => ar end in
        mkI (i_name x) (i_at x) (i_at_ref x) (i_rot x) (i_rot_ref x) (Some (place ar (i_at x) rr (i_rot x))) (i_rest x) (i_jump x) (i_minimal x)
    | _, _ => x
    end.
  (** Instance.copy, instance.py:227-231: the mode is not handed on, so that it is the normal one *)
  Definition copy_instance (h : list instance) (x : instance) : instance :=
    post_init h (mkI (i_name x) (i_at x) (i_at_ref x) (i_rot x) (i_rot_ref x) (i_orient x) (i_rest x) (i_jump x) false).

  (** the bounds of a slice of n elements, for any integers *)
  Definition bound (n : nat) (i : Z) : nat :=
    if (i <? 0)%Z then Z.to_nat (i + Z.of_nat n) else Nat.min (Z.to_nat i) n.
  (** l[first:last] *)
  Definition slice {A} (l : list A) (first last : Z) : list A :=
    let n := List.length l in firstn (bound n last - bound n first) (skipn (bound n first) l).
  (** the objects at these places *)
  Definition objects (h : list instance) (l : list nat) : list instance :=
    flat_map (fun a => match nth_error h a with Some x => [x] | None => [] end) l.
  (** Instr.copy, instr.py:307-325 *)
  Definition copy (h : heap) (s : instrument) (first last : Z) : heap * instrument :=
    let last := if (last <? 0)%Z then (last + (1 + Z.of_nat (List.length (s_comps s))))%Z else last in
    let xs := objects (h_inst h) (slice (s_comps s) first last) in
    (mkH (h_inst h ++ map (copy_instance (h_inst h)) xs) (h_jump h),
     mkS (s_name s) (seq (List.length (h_inst h)) (List.length xs))).

  (** assignment to an object *)
  Fixpoint assign (h : list instance) (a : nat) (x : instance) : list instance :=
    match h, a with
    | [], _ => []
    | _ :: t, 0 => x :: t
    | y :: t, S a => y :: assign t a x
    end.
  (** the name of an instance *)
  Definition name_of (h : list instance) (a : nat) : option string := option_map i_name (nth_error h a).
  (** x.name == name *)
  Definition named (h : list instance) (n : string) (a : nat) : bool :=
    match name_of h a with Some m => m =?s n | None => false end.
  (** has_component_named, instr.py:160-161 *)
  Definition has_named (h : list instance) (l : list nat) (n : string) : bool := existsb (named h n) l.
  (** get_component, instr.py:152-158 *)
  Definition get_component (h : list instance) (l : list nat) (n : string) : option nat :=
    if n =?s "PREVIOUS" then (match rev l with a :: _ => Some a | [] => None end) else find (named h n) l.
  (** one of the two references of the loop, instr.py:363-374; None: something is raised *)
  Definition relink (h : list instance) (l : list nat) (o : option orient) (absolute : orient -> vec) (v : vec) (r : option nat) : option (vec * option nat) :=
    match r with
    | None => Some (v, None)
    | Some r => match name_of h r with
                | None => None
                | Some n => if has_named h l n
                            then match get_component h l n with Some a => Some (v, Some a) | None => None end
                            else match o with Some o => Some (absolute o, None) | None => None end
                end
    end.
  (** the body of the loop for the instance at one place, instr.py:362-374 *)
  Definition relink_one (l : list nat) (h : list instance) (a : nat) : option (list instance) :=
    match nth_error h a with
    | None => None
    | Some x =>
        match relink h l (i_orient x) position (i_at x) (i_at_ref x), relink h l (i_orient x) angles (i_rot x) (i_rot_ref x) with
        | Some (v, ar), Some (w, rr) => Some (assign h a (mkI (i_name x) v ar w rr (i_orient x) (i_rest x) (i_jump x) (i_minimal x)))
        | _, _ => None
        end
    end.
  (** the loop, instr.py:362-374 *)
  Fixpoint relink_all (l : list nat) (h : list instance) (todo : list nat) : option (list instance) :=
    match todo with
    | [] => Some h
    | a :: t => match relink_one l h a with Some h' => relink_all l h' t | None => None end
    end.
  (** the places of the components of a name, instr.py:348 *)
  Definition positions (h : list instance) (l : list nat) (n : string) : list nat :=
    map fst (filter (fun p => named h n (snd p)) (combine (seq 0 (List.length l)) l)).
  (** Instr.split at a name, instr.py:347-378; check_instrument_parameters, 471-488, assigns
      only the parameters of the parts and is left out *)
  Definition split (h : heap) (s : instrument) (at_ : string) : option (heap * instrument * instrument) :=
    match positions (h_inst h) (s_comps s) at_ with
    | [index] =>
        let '(h1, first) := copy h s 0 (Z.of_nat index + 1) in
        let '(h2, second) := copy h1 s (Z.of_nat index) (-1) in
        match relink_all (s_comps second) (h_inst h2) (s_comps second) with
        | Some hi => Some (mkH hi (h_jump h2), mkS (s_name s ++ "_first")%string (s_comps first), mkS (s_name s ++ "_second")%string (s_comps second))
        | None => None
        end
    | _ => None
    end.

  (** the jumps of the instance at a place *)
  Definition jumps_of (h : list instance) (a : nat) : list nat := match nth_error h a with Some x => i_jump x | None => [] end.
  (** the pairs of translators/target.py:220 *)
  Fixpoint jump_pairs (h : list instance) (i : nat) (l : list nat) : list (nat * nat) :=
    match l with [] => [] | a :: t => map (fun r => (i, r)) (jumps_of h a) ++ jump_pairs h (S i) t end.
  (** set_jump_absolute_targets, target.py:219-230, as translating an instrument begins; None: IndexError *)
  Definition translate (h : heap) (s : instrument) : option heap :=
    match resolve (map i_name (objects (h_inst h) (s_comps s))) (jump_pairs (h_inst h) 0 (s_comps s)) (h_jump h) with
    | Some js => Some (mkH (h_inst h) js)
    | None => None
    end.
End Objects.
