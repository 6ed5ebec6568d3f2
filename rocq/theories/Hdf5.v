(** Saving and loading of instruments: io/hdf5.py.

    An HDF5 group is a list of attributes and a list of named members; a dataset holds one scalar.  Python objects are trees
    of scalars, lists, tuples and objects with named fields.  An Instance refers to other instances by their position and
    name; components, groups and the instrument have records of their own, all other classes go through the table of
    handlers.  Not modelled: dictionaries other than Instr.groups, the bytes of a file. *)
From Coq Require Import List String Ascii Bool Arith ZArith Lia.
From Verif Require Import PyStr Expr.
Import ListNotations.
Local Open Scope string_scope.
Local Open Scope list_scope.
Local Open Scope nat_scope.

(** a key of a Python dict or of a group *)
Definition get {A} (n : string) (l : list (string * A)) : option A := option_map snd (find (fun p => fst p =?s n) l).
(** run a partial function over a list and collect the results *)
Fixpoint collect {A B} (f : A -> res (list B)) (l : list A) : res (list B) :=
  match l with [] => Ok [] | x :: t => rbind (f x) (fun a => rbind (collect f t) (fun b => Ok (a ++ b))) end.

(** str.format of [idx:0{pad}d], hdf5.py:332-333, 349-350 *)
Fixpoint zeros (n : nat) : string := match n with O => "" | S k => String "0" (zeros k) end.
(** hdf5.py:332-333, 349-350, the number with leading zeros *)
Definition padded (pad : nat) (s : string) : string := (zeros (pad - String.length s) ++ s)%string.
(** hdf5.py:332-333, 349-350, the name of an entry *)
Definition entry_name (idx pad : nat) : string := ("t" ++ padded pad (str_nat idx))%string.
(** len(str(count)), hdf5.py:319, 326 *)
Definition pad_of (count : nat) : nat := String.length (str_nat count).

(** enumerations, common/expression.py:48-60, 95-104, 143-151 *)
Definition object_from_name (n : string) : option string :=
  if contains "value" n then Some "value" else if contains "initializer_list" n then Some "initializer_list"
  else if contains "identifier" n then Some "identifier" else if contains "function" n then Some "function"
  else if contains "parameter" n then Some "parameter" else None.
(** ShapeType.from_name, common/expression.py:95-104 *)
Definition shape_from_name (n : string) : string := if contains "vector" n then "vector" else if contains "scalar" n then "scalar" else "unknown".
(** DataType.from_name, common/expression.py:143-151 *)
Definition data_from_name (n : string) : dtype :=
  if contains "double" n || contains "float" n then DFloat else if contains "int" n then DInt
  else if contains "char" n || contains "string" n || contains "str" n then DStr else DUndef.
(** DataType.name, expression.py:153-161 *)
Definition data_name (d : dtype) : string := match d with DInt => "int" | DFloat => "float" | DStr => "str" | DUndef => "undefined" end.

Section H5.
(** Python floats, of which 0.0 and 1.0 are named; mccode_antlr.version.version() *)
Variable F : Type.
Variables f0 f1 : F.
Variable ver : string.

(** values that h5py keeps as attributes or scalar datasets *)
Inductive scalar := SStr (s : string) | SInt (z : Z) | SFloat (f : F) | SBool (b : bool).
(** Python objects, see the top of this file *)
Inductive obj := ONone | OScal (s : scalar) | OList (l : list obj) | OTup (l : list obj) | ORec (cls : string) (fs : list (string * obj)).
(** groups with attributes and members, datasets *)
Inductive h5 := G (attrs : list (string * scalar)) (members : list (string * h5)) | D (s : scalar).

(** what h5py can store: texts without NUL and integers of 64 bits *)
Definition storable (s : scalar) : bool :=
  match s with SStr t => negb (has_char "000" t) | SInt z => ((- 2 ^ 63 <=? z) && (z <? 2 ^ 64))%Z | _ => true end.
(** the class name of a scalar, as written by hdf5.py:12-14 *)
Definition class_of (s : scalar) : string := match s with SStr _ => "str" | SInt _ => "int" | SFloat _ => "float" | SBool _ => "bool" end.

(** ** The table of handlers, hdf5.py:404-455
    [s_attrs]: a field and the attribute that holds it; [s_opt]: members that may be missing, with the default of the class;
    [s_req]: members that must be there; [s_lost]: fields that are not written, with the default of the class *)
Record spec := mkSpec { s_attrs : list (string * string); s_opt : list (string * obj); s_req : list string; s_lost : list (string * obj) }.
(** attributes named like their fields, hdf5.py:404-455 *)
Definition same (l : list string) : list (string * string) := map (fun n => (n, n)) l.
(** the default of tuple fields, instr/instr.py:20-34, comp/comp.py:14-30 *)
Definition empty : obj := OTup [].
(** Expr of a float Value, as in Seitz, instr/orientation.py:228-240 *)
Definition float_expr (f : F) : obj :=
  ORec "Expr" [("expr", OList [ORec "Value" [("object_type", OScal (SStr "value")); ("data_type", OScal (SStr "float")); ("shape_type", OScal (SStr "scalar")); ("value", OScal (SFloat f))]])].
(** the entries of a Seitz matrix, hdf5.py:223-239 *)
Definition seitz_names : list string := ["xx"; "xy"; "xz"; "xt"; "yx"; "yy"; "yz"; "yt"; "zx"; "zy"; "zz"; "zt"].
(** the entries of a Rotation, hdf5.py:223-259 *)
Definition matrix_names : list string := ["xx"; "xy"; "xz"; "yx"; "yy"; "yz"; "zx"; "zy"; "zz"].
(** instr/orientation.py:228-240 Seitz() *)
Definition identity : obj := ORec "Seitz" (map (fun n => (n, float_expr (if existsb (String.eqb n) ["xx"; "yy"; "zz"] then f1 else f0))) seitz_names).
(** Parts without parts, instr/orientation.py:721-865 *)
Definition parts0 : obj := ORec "Parts" [("_stack", empty)].
(** the attributes of operations, hdf5.py:404-455 *)
Definition op_attrs : list (string * string) := [("op", "op"); ("style", "style"); ("data_type", "data_type_name")].
(** the handlers of Part and its subclasses, hdf5.py:223-239 *)
Definition part_spec : spec := mkSpec [] [] ["v"] [("degrees", OScal (SBool true))].
(** hdf5.py:404-455 *)
Definition table : list (string * spec) := [
  ("InstrumentParameter", mkSpec (same ["name"; "unit"]) [] ["value"] []);
  ("MetaData", mkSpec (same ["name"; "mimetype"; "value"]) [] ["source"] []);
  ("DataSource", mkSpec (same ["name"; "type_name"]) [] [] []);
  ("RawC", mkSpec (same ["filename"; "line"]) [("translated", ONone)] ["source"] []);
  ("ModuleRemoteRegistry", mkSpec (same ["name"; "url"; "version"; "filename"]) [] [] [("priority", OScal (SInt 0))]);
  ("GitHubRegistry", mkSpec (same ["name"; "url"; "version"; "filename"; "registry"]) [] [] [("priority", OScal (SInt 0))]);
  ("LocalRegistry", mkSpec (same ["name"; "root"]) [] [] [("priority", OScal (SInt 10))]);
  ("ComponentParameter", mkSpec (same ["name"]) [] ["value"] []);
  ("Comp", mkSpec (same ["name"; "category"; "dependency"; "acc"])
     (map (fun n => (n, empty)) ["define"; "setting"; "output"; "metadata"; "share"; "user"; "declare"; "initialize"; "trace"; "save"; "final"; "display"]) [] []);
  ("Orient", mkSpec (same ["_degrees"]) [("_position", parts0); ("_rotation", parts0)] [] []);
  ("Parts", mkSpec [] [("_stack", empty)] [] []);
  ("Part", mkSpec [] [("_axes", identity)] [] []);
  ("RotationX", part_spec); ("RotationY", part_spec); ("RotationZ", part_spec);
  ("TranslationPart", mkSpec [] [] ["v"] []);
  ("Seitz", mkSpec [] [] seitz_names []);
  ("Rotation", mkSpec [] [] matrix_names []); ("Matrix", mkSpec [] [] matrix_names []);
  ("Vector", mkSpec [] [] ["x"; "y"; "z"] []); ("Angles", mkSpec [] [] ["x"; "y"; "z"] []);
  ("Jump", mkSpec (same ["target"; "relative_target"; "iterate"; "absolute_target"]) [] ["condition"] []);
  ("Value", mkSpec [("object_type", "object_type_name"); ("data_type", "data_type_name"); ("shape_type", "shape_type_name")] [("value", ONone)] [] []);
  ("Expr", mkSpec [] [] ["expr"] []);
  ("TrinaryOp", mkSpec op_attrs [] ["first"; "second"; "third"] []);
  ("BinaryOp", mkSpec op_attrs [] ["left"; "right"] []);
  ("UnaryOp", mkSpec op_attrs [] ["value"] []) ].
(** the handler of a class, hdf5.py:457-463 *)
Definition spec_of (cls : string) : option spec := get cls table.

(** ** Saving *)
Definition KEY : string := "mccode-antlr_version_data-type-name".
(** hdf5.py:12-14 *)
Definition header (cls : string) : string * scalar := (KEY, SStr (ver ++ "/" ++ cls)).
(** hdf5.py:45-52 _standard_save: an attribute that is not None; anything but a scalar is refused *)
Definition put_attr (fs : list (string * obj)) (p : string * string) : res (list (string * scalar)) :=
  match get (fst p) fs with
  | Some ONone => Ok []
  | Some (OScal s) => if storable s then Ok [(snd p, s)] else Raise
  | _ => Raise
  end.
(** hdf5.py:45-52 _standard_save: a member that is not None *)
Definition put_member (fs : list (string * obj)) (saved : list (string * res h5)) (n : string) : res (list (string * h5)) :=
  match get n fs with
  | Some ONone => Ok []
  | Some _ => match get n saved with Some (Ok g) => Ok [(n, g)] | _ => Raise end
  | None => Raise
  end.
(** hdf5.py:323-327, 340-344, 357-361: the entries of a list or tuple; create_group refuses a name twice *)
Fixpoint entries (pad i : nat) (l : list (res h5)) (ms : list (string * h5)) : res (list (string * h5)) :=
  match l with
  | [] => Ok ms
  | Ok g :: t => match get (entry_name i pad) ms with None => entries pad (S i) t (ms ++ [(entry_name i pad, g)]) | Some _ => Raise end
  | _ :: t => Raise
  end.
(** hdf5.py:323-327, 340-344, 357-361 *)
Definition sequence (cls : string) (l : list (res h5)) : res h5 :=
  rbind (entries (pad_of (List.length l)) 0 l []) (fun ms => Ok (G [header cls; ("length", SInt (Z.of_nat (List.length l)))] ms)).
(** hdf5.py:45-52 _standard_save *)
Definition fields_out (sp : spec) (cls : string) (fs : list (string * obj)) (saved : list (string * res h5)) : res h5 :=
  rbind (collect (put_attr fs) (s_attrs sp)) (fun a =>
  rbind (collect (put_member fs saved) (map fst (s_opt sp) ++ s_req sp)) (fun m => Ok (G (header cls :: a) m))).
(** hdf5.py:457-463 HDF5IO.save; a class without a handler, and None, leave an empty group *)
Fixpoint save (o : obj) : res h5 :=
  match o with
  | ONone => Ok (G [] [])
  | OScal s => if storable s then Ok (G [header (class_of s)] [("entry", D s)]) else Raise
  | OList l => sequence "list" (map save l)
  | OTup l => sequence "tuple" (map save l)
  | ORec cls fs =>
      match spec_of cls with
      | None => Ok (G [] [])
      | Some sp => fields_out sp cls fs (map (fun p => match p with (n, v) => (n, save v) end) fs)
      end
  end.

(** ** Loading *)
(** hdf5.py:8-9, 467: the class a group claims to hold *)
Definition class_in (attrs : list (string * scalar)) : option (string * string) :=
  match get KEY attrs with Some (SStr h) => split_once "/" h | _ => None end.
(** hdf5.py:17-25 *)
Definition check_header (attrs : list (string * scalar)) (cls : string) : bool :=
  match class_in attrs with Some (v, n) => (v =?s ver) && (n =?s cls) | None => false end.
(** hdf5.py:28-42 _standard_read: attributes *)
Definition from_attr (attrs : list (string * scalar)) (p : string * string) : string * obj :=
  (fst p, match get (snd p) attrs with Some s => OScal s | None => ONone end).
(** hdf5.py:28-42 _standard_read: members with a default *)
Definition optional (lm : list (string * res obj)) (p : string * obj) : res (list (string * obj)) :=
  match get (fst p) lm with None => Ok [p] | Some r => rbind r (fun v => Ok [(fst p, v)]) end.
(** hdf5.py:28-42 _standard_read: members without default *)
Definition required (lm : list (string * res obj)) (n : string) : res (list (string * obj)) :=
  match get n lm with Some (Ok ONone) => Raise | Some (Ok v) => Ok [(n, v)] | _ => Raise end.
(** hdf5.py:28-42 _standard_read and the constructor's defaults *)
Definition fields_in (sp : spec) (attrs : list (string * scalar)) (lm : list (string * res obj)) : res (list (string * obj)) :=
  rbind (collect (optional lm) (s_opt sp)) (fun o => rbind (collect (required lm) (s_req sp)) (fun r =>
    Ok (map (from_attr attrs) (s_attrs sp) ++ o ++ r ++ s_lost sp))).
(** a field that holds a text *)
Definition str_field (n : string) (fs : list (string * obj)) : option string := match get n fs with Some (OScal (SStr s)) => Some s | _ => None end.
(** the data_type of an element of an expression *)
Definition dt_field (o : obj) : option dtype :=
  match o with
  | ORec cls fs => if existsb (String.eqb cls) ["Value"; "UnaryOp"; "BinaryOp"; "TrinaryOp"] then option_map data_from_name (str_field "data_type" fs) else None
  | _ => None
  end.
(** the single data type of operands, expression.py:397-402 *)
Definition one_type (l : list obj) : option dtype :=
  match map dt_field l with
  | Some d :: t => if forallb (fun x => match x with Some y => dtype_eqb d y | None => false end) t then Some d else None
  | _ => None
  end.
(** a field that holds a list *)
Definition list_field (n : string) (fs : list (string * obj)) : option (list obj) := match get n fs with Some (OList l) => Some l | _ => None end.
(** the constructors of operations, expression.py:295-311, 384-406, 538-550; operands are lists *)
Definition op_type (cls : string) (fs : list (string * obj)) : option dtype :=
  if cls =?s "UnaryOp" then match list_field "value" fs with Some l => one_type l | None => None end
  else if cls =?s "BinaryOp" then
    match str_field "op" fs, list_field "left" fs, list_field "right" fs with
    | Some op, Some l, Some r =>
        if existsb (String.eqb op) ["__call__"; "__struct_access__"; "__pointer_access__"; "__getitem__"] then Some DUndef
        else match one_type l, one_type r with Some a, Some b => Some (dt_add a b) | _, _ => None end
    | _, _, _ => None
    end
  else match list_field "first" fs, list_field "second" fs, list_field "third" fs with
       | Some _, Some l, Some r => match one_type l, one_type r with Some a, Some b => Some (dt_add a b) | _, _ => None end
       | _, _, _ => None
       end.
(** a registry that cannot be built again is replaced, hdf5.py:191-195, 210-214 *)
Definition fallback (cls : string) : obj :=
  if cls =?s "LocalRegistry" then ORec "Registry" [("name", ONone); ("root", ONone); ("priority", OScal (SInt 0))]
  else ORec "RemoteRegistry" [("name", OScal (SStr "loading error")); ("url", ONone); ("version", ONone); ("filename", ONone); ("priority", OScal (SInt 0))].
(** the constructors of registries look at files and the network: [Ok false] is a RuntimeError *)
Variable build : string -> list (string * obj) -> res bool.
(** the classes of registries with a handler, hdf5.py:404-455 *)
Definition registries : list string := ["ModuleRemoteRegistry"; "GitHubRegistry"; "LocalRegistry"].
Definition construct (cls : string) (fs : list (string * obj)) : res obj :=
  if existsb (String.eqb cls) ["UnaryOp"; "BinaryOp"; "TrinaryOp"] then
    (* hdf5.py:265-277 *)
    match op_type cls fs, str_field "data_type" fs with
    | Some d, Some n => if dtype_eqb d (data_from_name n) then Ok (ORec cls fs) else Raise
    | _, _ => Raise
    end
  else if cls =?s "Value" then
    (* hdf5.py:297-304 *)
    match str_field "object_type" fs, str_field "data_type" fs, str_field "shape_type" fs, get "value" fs with
    | Some o, Some d, Some s, Some v =>
        match object_from_name o with
        | Some o => Ok (ORec cls [("object_type", OScal (SStr o)); ("data_type", OScal (SStr (data_name (data_from_name d)))); ("shape_type", OScal (SStr (shape_from_name s))); ("value", v)])
        | None => Raise
        end
    | _, _, _, _ => Raise
    end
  else if cls =?s "DataSource" then
    (* common/metadata.py:30-32 *)
    match str_field "type_name" fs with
    | Some n => if existsb (String.eqb n) ["Component"; "Instance"; "Instrument"] then Ok (ORec cls fs) else Raise
    | None => Raise
    end
  else if existsb (String.eqb cls) registries then rbind (build cls fs) (fun b => Ok (if b then ORec cls fs else fallback cls))
  else Ok (ORec cls fs).
(** hdf5.py:316-320, 335-338, 352-355 *)
Fixpoint items {A} (pad i n : nat) (lm : list (string * res A)) : res (list A) :=
  match n with
  | O => Ok []
  | S k => match get (entry_name i pad) lm with Some (Ok v) => rbind (items pad (S i) k lm) (fun t => Ok (v :: t)) | _ => Raise end
  end.
(** the attribute length, hdf5.py:316-320 *)
Definition count_in (attrs : list (string * scalar)) : option nat := match get "length" attrs with Some (SInt z) => Some (Z.to_nat z) | _ => None end.
(** hdf5.py:316-320, 335-338, 352-355 *)
Definition sequence_in {A} (attrs : list (string * scalar)) (lm : list (string * res A)) : res (list A) :=
  match count_in attrs with Some n => items (pad_of n) 0 n lm | None => Raise end.
(** hdf5.py:377-391, the classes stored directly *)
Definition scalar_classes : list string := ["str"; "int"; "float"; "bool"].
(** handled classes that need the instances read so far, hdf5.py:90, 136, 171, 366 *)
Definition special : list string := ["Instr"; "Instance"; "Group"; "dict"].
(** hdf5.py:465-471 HDF5IO.load *)
Fixpoint load (g : h5) : res obj :=
  match g with
  | D _ => Raise
  | G attrs members =>
      let lm := map (fun p => match p with (n, m) => (n, load m) end) members in
      match class_in attrs with
      | None => Raise
      | Some (_, cls) =>
          if existsb (String.eqb cls) scalar_classes then
            if check_header attrs cls then match get "entry" members with Some (D s) => if class_of s =?s cls then Ok (OScal s) else Raise | _ => Raise end else Raise
          else if cls =?s "list" then if check_header attrs cls then rbind (sequence_in attrs lm) (fun l => Ok (OList l)) else Raise
          else if cls =?s "tuple" then if check_header attrs cls then rbind (sequence_in attrs lm) (fun l => Ok (OTup l)) else Raise
          else match spec_of cls with
               | Some sp => if check_header attrs cls then rbind (fields_in sp attrs lm) (construct cls) else Raise
               | None => if existsb (String.eqb cls) special then Raise else Ok ONone
               end
      end
  end.

(** ** Instances, groups and instruments *)
(** a reference: the position of the instance in the instrument and its name *)
Definition ref : Type := nat * string.
(** [i_fs]: the fields of InstanceIO.attrs and names, and mode; [i_type]: the component *)
Record inst := mkInst { i_fs : list (string * obj); i_type : obj; i_at : obj; i_atref : option ref; i_rot : obj; i_rotref : option ref }.
(** hdf5.py:83-87; instr/instance.py:20-34 *)
Definition inst_spec : spec := mkSpec (same ["name"; "removable"; "cpu"; "group"])
  [("orientation", ONone); ("parameters", empty); ("split", ONone); ("when", ONone); ("extend", empty); ("jump", empty); ("metadata", empty)] []
  [("mode", OScal (SStr "normal"))].
(** the fields of an object *)
Definition rec_fields (o : obj) : list (string * obj) := match o with ORec _ fs => fs | _ => [] end.
(** hdf5.py:45-52, every field saved in its group *)
Definition saved_fields (fs : list (string * obj)) : list (string * res h5) := map (fun p => match p with (n, v) => (n, save v) end) fs.
(** an attribute for a text that may be None, hdf5.py:112-126 *)
Definition str_attr (k : string) (s : option string) : res (list (string * scalar)) :=
  match s with None => Ok [] | Some t => if storable (SStr t) then Ok [(k, SStr t)] else Raise end.
(** hdf5.py:112-126 *)
Definition save_inst (i : inst) : res h5 :=
  match fields_out inst_spec "Instance" (i_fs i) (saved_fields (i_fs i)), str_field "name" (rec_fields (i_type i)) with
  | Ok (G a m), Some ty =>
      rbind (str_attr "type" (Some ty)) (fun t => rbind (save (i_at i)) (fun v => rbind (str_attr "at_reference" (option_map snd (i_atref i))) (fun ra =>
      rbind (save (i_rot i)) (fun w => rbind (str_attr "rotate_reference" (option_map snd (i_rotref i))) (fun rr =>
        Ok (G (a ++ t ++ ra ++ rr) (m ++ [("at_vector", v); ("rotate_angles", w)])))))))
  | _, _ => Raise
  end.
(** hdf5.py:28-42, every member loaded *)
Definition loaded (members : list (string * h5)) : list (string * res obj) := map (fun p => match p with (n, m) => (n, load m) end) members.
(** hdf5.py:100-109: a name among the instances loaded so far, the newest first *)
Definition find_ref (known : list ref) (s : option scalar) : res (option ref) :=
  match s with
  | None => Ok None
  | Some (SStr n) => match find (fun r => snd r =?s n) known with Some r => Ok (Some r) | None => Raise end
  | _ => Raise
  end.
(** Instance.__post_init__, instance.py:99-113: a missing orientation is worked out from the references *)
Variable derive : inst -> obj.
(** assignment to a field *)
Definition set_field (n : string) (v : obj) (fs : list (string * obj)) : list (string * obj) := map (fun p => if fst p =?s n then (n, v) else p) fs.
(** Instance.__post_init__, instr/instance.py:99-113 *)
Definition post_init (i : inst) : inst :=
  match str_field "mode" (i_fs i), get "orientation" (i_fs i) with
  | Some m, Some ONone => if m =?s "minimal" then i else mkInst (set_field "orientation" (derive i) (i_fs i)) (i_type i) (i_at i) (i_atref i) (i_rot i) (i_rotref i)
  | _, _ => i
  end.
(** hdf5.py:89-110 *)
Definition load_inst (known : list ref) (comps : list (string * obj)) (g : h5) : res inst :=
  match g with
  | D _ => Raise
  | G attrs members =>
      let lm := loaded members in
      if check_header attrs "Instance" then
        rbind (fields_in inst_spec attrs lm) (fun fs =>
          match get "type" attrs with
          | Some (SStr ty) =>
              match get ty comps, get "at_vector" lm, get "rotate_angles" lm with
              | Some c, Some (Ok v), Some (Ok w) =>
                  rbind (find_ref known (get "at_reference" attrs)) (fun ra => rbind (find_ref known (get "rotate_reference" attrs)) (fun rr =>
                    Ok (post_init (mkInst fs c v ra w rr))))
              | _, _, _ => Raise
              end
          | _ => Raise
          end)
      else Raise
  end.
(** the name of an instance *)
Definition inst_name (i : inst) : option string := str_field "name" (i_fs i).
(** hdf5.py:140-151: each instance sees those before it *)
Fixpoint load_insts (pad i n : nat) (known : list ref) (comps : list (string * obj)) (ms : list (string * h5)) : res (list inst) :=
  match n with
  | O => Ok []
  | S k =>
      match get (entry_name i pad) ms with
      | Some g => rbind (load_inst known comps g) (fun x =>
          match inst_name x with
          | Some nm => rbind (load_insts pad (S i) k ((i, nm) :: known) comps ms) (fun t => Ok (x :: t))
          | None => Raise
          end)
      | None => Raise
      end
  end.

(** Group: name, index and ids, and the members by reference; hdf5.py:167-180 *)
Record group := mkGroup { g_fs : list (string * obj); g_members : list ref }.
(** hdf5.py:167-180 *)
Definition group_spec : spec := mkSpec (same ["name"; "index"]) [] ["ids"] [].
(** hdf5.py:177-180 GroupIO.save *)
Definition save_group (x : group) : res h5 :=
  match fields_out group_spec "Group" (g_fs x) (saved_fields (g_fs x)) with
  | Ok (G a m) => rbind (save (OList (map (fun r => OScal (SStr (snd r))) (g_members x)))) (fun l => Ok (G a (m ++ [("member_names", l)])))
  | _ => Raise
  end.
(** hdf5.py:170-175 GroupIO.load: the members by name *)
Definition members_in (known : list ref) (l : list obj) : res (list ref) :=
  collect (fun o => match o with OScal (SStr n) => match find (fun r => snd r =?s n) known with Some r => Ok [r] | None => Raise end | _ => Raise end) l.
(** hdf5.py:170-175 GroupIO.load *)
Definition load_group (known : list ref) (g : h5) : res group :=
  match g with
  | D _ => Raise
  | G attrs members =>
      let lm := loaded members in
      if check_header attrs "Group" then
        rbind (fields_in group_spec attrs lm) (fun fs =>
          match get "member_names" lm with
          | Some (Ok (OList l)) => rbind (members_in known l) (fun ms => Ok (mkGroup fs ms))
          | _ => Raise
          end)
      else Raise
  end.

(** Instr, hdf5.py:129-164; the dictionary of groups is a list of keys and groups *)
Record instr := mkInstr { n_fs : list (string * obj); n_insts : list inst; n_groups : list (string * group) }.
(** hdf5.py:129-164, the attributes and members of an instrument *)
Definition instr_spec : spec := mkSpec (same ["name"; "source"])
  (map (fun n => (n, empty)) ["parameters"; "metadata"; "included"; "user"; "declare"; "initialize"; "save"; "final"; "flags"; "registries"]) [] [].
(** Instr.component_types, instr/instr.py:207-211: dict.fromkeys keeps the first of equal components *)
Variable comp_eq : obj -> obj -> bool.
(** hdf5.py:156-164, instr/instr.py:207-211: component types that occur once *)
Fixpoint dedup (seen : list obj) (l : list obj) : list obj :=
  match l with [] => [] | x :: t => if existsb (comp_eq x) seen then dedup seen t else x :: dedup (seen ++ [x]) t end.
(** hdf5.py:164, instr/instr.py:207-211: the types of the instances *)
Definition component_types (l : list inst) : list obj := dedup [] (map i_type l).
(** hdf5.py:370-374 DictIO.save; a key that h5py would take as a path or cannot store is refused here, where h5py makes nested groups
    that cannot be loaded *)
Definition plain_key (k : string) : bool := negb (has_char "/" k) && negb (k =?s "") && negb (k =?s ".") && storable (SStr k).
(** hdf5.py:370-374 DictIO.save for Instr.groups *)
Fixpoint save_groups (l : list (string * group)) (ms : list (string * h5)) : res (list (string * h5)) :=
  match l with
  | [] => Ok ms
  | (k, x) :: t => match (if plain_key k then get k ms else Some (D (SBool false))) with None => rbind (save_group x) (fun g => save_groups t (ms ++ [(k, g)])) | Some _ => Raise end
  end.
(** hdf5.py:156-164 InstrIO.save *)
Definition save_instr (x : instr) : res h5 :=
  match fields_out instr_spec "Instr" (n_fs x) (saved_fields (n_fs x)) with
  | Ok (G a m) =>
      rbind (save_groups (n_groups x) []) (fun gs => rbind (sequence "tuple" (map save_inst (n_insts x))) (fun is =>
      rbind (save (OList (component_types (n_insts x)))) (fun cs =>
        Ok (G a (m ++ [("groups", G [header "dict"] gs); ("instances", is); ("components", cs)])))))
  | _ => Raise
  end.
(** h5py lists the members of a group in the order of their names *)
Fixpoint insert {A} (p : string * A) (l : list (string * A)) : list (string * A) :=
  match l with [] => [p] | q :: t => match String.compare (fst p) (fst q) with Gt => q :: insert p t | _ => p :: l end end.
(** the members of a group in the order h5py gives them *)
Definition by_key {A} (l : list (string * A)) : list (string * A) := fold_right insert [] l.
(** hdf5.py:365-368 DictIO.load *)
Definition load_groups (known : list ref) (ms : list (string * h5)) : res (list (string * group)) :=
  collect (fun p => match p with (k, g) => rbind (load_group known g) (fun x => Ok [(k, x)]) end) (by_key ms).
(** hdf5.py:139: a later component of the same name replaces an earlier one *)
Definition comps_by_name (l : list obj) : list (string * obj) := rev (flat_map (fun c => match str_field "name" (rec_fields c) with Some n => [(n, c)] | None => [] end) l).
(** hdf5.py:140-151: the instances by name, for references *)
Fixpoint known_of (i : nat) (l : list inst) (acc : list ref) : list ref :=
  match l with [] => acc | x :: t => known_of (S i) t (match inst_name x with Some n => (i, n) :: acc | None => acc end) end.
(** hdf5.py:135-154 InstrIO.load *)
Definition load_instr (g : h5) : res instr :=
  match g with
  | D _ => Raise
  | G attrs members =>
      let lm := loaded members in
      if check_header attrs "Instr" then
        rbind (fields_in instr_spec attrs lm) (fun fs =>
          match get "components" lm, get "instances" members, get "groups" members with
          | Some (Ok (OList cs)), Some (G ia ims), Some (G ga gms) =>
              match check_header ia "tuple", count_in ia, check_header ga "dict" with
              | true, Some n, true =>
                  rbind (load_insts (pad_of n) 0 n [] (comps_by_name cs) ims) (fun is =>
                  rbind (load_groups (known_of 0 is []) gms) (fun gs => Ok (mkInstr fs is gs)))
              | _, _, _ => Raise
              end
          | _, _, _ => Raise
          end)
      else Raise
  end.
End H5.
Arguments SStr {F}. Arguments SInt {F}. Arguments SFloat {F}. Arguments SBool {F}. Arguments ONone {F}. Arguments OScal {F}. Arguments OList {F}. Arguments OTup {F}. Arguments ORec {F}.
Arguments G {F}. Arguments D {F}. Arguments storable {F}. Arguments class_of {F}. Arguments mkSpec {F}. Arguments s_attrs {F}. Arguments s_opt {F}. Arguments s_req {F}. Arguments s_lost {F}.
Arguments mkInst {F}. Arguments i_fs {F}. Arguments i_type {F}. Arguments i_at {F}. Arguments i_atref {F}. Arguments i_rot {F}. Arguments i_rotref {F}.
Arguments mkGroup {F}. Arguments g_fs {F}. Arguments g_members {F}. Arguments mkInstr {F}. Arguments n_fs {F}. Arguments n_insts {F}. Arguments n_groups {F}.
Arguments inst_name {F}. Arguments str_field {F}. Arguments rec_fields {F}. Arguments plain_key {F}.
