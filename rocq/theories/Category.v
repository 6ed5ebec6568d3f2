(** The category of a component and the instances of a category: reader/reader.py:113-136
    (Reader.add_component, the category of the definition), comp/visitor.py:27-44
    (visitComponentDefineCopy, visitCategory), instr/instr.py:163-172
    (Instr.get_component_names_by_category).

    Simplifications.  What a component file says of its category and its original is an arbitrary
    function of its text.  The dictionary of components read before (reader.py:138-141) is left
    out: while the registries stay the same it holds what reading again would give. *)
From Coq Require Import List String Ascii Bool Arith Lia.
From Verif Require Import PyStr TextLines Expr Registry CompParam.
Import ListNotations.
Local Open Scope string_scope.
Local Open Scope list_scope.
Local Open Scope nat_scope.

(** of a component file: the name after COPY and the category, comp/visitor.py:27-44 *)
Record cfile := mkFile { f_copy : option string; f_category : option category }.

(** str of a StringLiteral without its first and its last character, comp/visitor.py:44 *)
Definition inner (s : string) : string := String.substring 1 (String.length s - 2) s.

Section Category.
  Variable root : registry -> string.              (* LocalRegistry.root, as text; registry.py:282 *)
  Variable parse : string -> option cfile.         (* grammar and visitor; None: an error *)
  Variable regs : list registry.                   (* Reader.registries *)

  (** registry.fullname with the root that glob puts in front, registry.py:309-334 *)
  Definition full_path (r : registry) (name : string) (ext : option string) : option (option string) :=
    match r_kind r with
    | Local _ => option_map (option_map (fun f => (root r +++ "/" +++ f)%string)) (r_fullname r name ext)
    | _ => r_fullname r name ext
    end.
  (** the category guessed from the name of the file, reader.py:130-135; Path(None) raises *)
  Definition guess (name : string) : res string :=
    match reader_get full_path regs None name (Some ".comp") true with
    | Some (Some f) => if absolute f then Ok "UNKNOWN" else match parts f with p :: _ => Ok p | [] => Raise end
    | _ => Raise
    end.
  (** the category of a component after Reader.add_component, reader.py:113-136; [n] bounds the
      chain of COPY *)
  Fixpoint category_of (n : nat) (name : string) : res string :=
    match n with
    | 0 => Fuel
    | S k =>
        match reader_contents regs None name (Some ".comp") true with
        | None => Raise
        | Some text =>
            match parse text with
            | None => Raise
            | Some f =>
                let inherited := match f_copy f with
                                 | None => Ok None
                                 | Some o => match category_of k o with Ok c => Ok (Some c) | Raise => Raise | Fuel => Fuel end
                                 end in
                match inherited with
                | Ok i =>
                    match f_category f with
                    | Some c => read_category inner c
                    | None => match i with Some c => Ok c | None => guess name end
                    end
                | Raise => Raise
                | Fuel => Fuel
                end
            end
        end
    end.
End Category.

(** get_component_names_by_category, instr/instr.py:163-172; an instance is its name and the
    category of its type *)
Definition names_by_category (insts : list (string * string)) (c : string) : list string :=
  map fst (filter (fun i => contains c (snd i)) insts).
