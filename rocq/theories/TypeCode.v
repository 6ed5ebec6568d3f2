(** The code of the component types in the C source (C86): which types count as different, when their code is translated
    and what is written for each of them.

    instr/instr.py:207-211 (component_types), 380-392 (make_instance); translators/c.py:142-156, 158-200, 253-258, 271-277
    (translation of the code, types, user variables and declarations); translators/c_decls.py:91-114 (shared code and
    structures); c_initialise.py:240-241, 299-322, c_trace.py:78-110, 147-148, c_save.py:7-8, 46-69, c_finally.py:7-8,
    56-79, c_display.py:15-16, 63-87 (functions of a type); common/block.py:30-36 (to_c).

    Component types are objects, at the places of a list; instances refer to the places.  The text that a block of code
    becomes (translators/c.py:89-140) is an arbitrary function, which may fail.  Blocks hold some text (blocks_to_raw_c, common/block.py:49-53).
    Left out: what is read from the translated code (C49,
    C59), EXTEND code (which is translated for each instance, translators/c.py:259-263), and the text around the code. *)
From Coq Require Import String List Bool Arith Lia.
Import ListNotations.
Local Open Scope string_scope.
Local Open Scope list_scope.

(** RawC, common/block.py:4-9; [b_where] stands for file name and line *)
Record block := mkB { b_where : string; b_source : string; b_translated : option string }.
(** Comp, comp/comp.py:8-30; [t_rest] stands for all fields that are neither the name nor code *)
Record ctype := mkT { t_name : string; t_rest : string; t_share : list block; t_user : list block; t_declare : list block;
                      t_initialize : list block; t_trace : list block; t_save : list block; t_final : list block; t_display : list block }.
(** the objects, by their places *)
Definition heap := list ctype.

(** == of two blocks and of two component types: the method made by dataclass, which compares all fields *)
Definition block_eq_dec (a b : block) : {a = b} + {a <> b}.
Proof. repeat decide equality. Defined.
(** see above *)
Definition type_eq_dec (a b : ctype) : {a = b} + {a <> b}.
Proof. decide equality; try apply (list_eq_dec block_eq_dec); apply string_dec. Defined.

(** dict.fromkeys, instr.py:211: of equal objects the first is kept *)
Fixpoint keep_first (h : heap) (seen : list ctype) (l : list nat) : list nat :=
  match l with
  | [] => []
  | a :: r =>
      match nth_error h a with
      | Some t => if in_dec type_eq_dec t seen then keep_first h seen r else a :: keep_first h (t :: seen) r
      | None => keep_first h seen r
      end
  end.
(** Instr.component_types, instr.py:207-211; [l] are the places of the types of the instances, in their order *)
Definition component_types (h : heap) (l : list nat) : list nat := keep_first h [] l.
(** the objects at these places *)
Definition at_places (h : heap) (l : list nat) : list ctype := flat_map (fun a => match nth_error h a with Some t => [t] | None => [] end) l.

(** all of a list, or failure *)
Fixpoint all_some {A} (l : list (option A)) : option (list A) :=
  match l with [] => Some [] | Some x :: r => option_map (cons x) (all_some r) | None :: _ => None end.

(** to_c, block.py:30-36: what an untranslated block gives is None, which neither the parser of C (c_listener.py:372) nor the join of lines accepts *)
Definition to_c (b : block) : option string := b_translated b.
(** the code of some blocks *)
Definition code (l : list block) : option (list string) := all_some (map to_c l).

(** _handle_raw_c_include, translators/c.py:89-140: the name of the component and the source, to the text *)
Section Handle.
Variable handle : string -> string -> option string.

(** translators/c.py:255-256 *)
Definition translate_block (name : string) (b : block) : option block :=
  option_map (fun t => mkB (b_where b) (b_source b) (Some t)) (handle name (b_source b)).
(** translators/c.py:254-258, for one type *)
Definition translate_type (t : ctype) : option ctype :=
  let f l := all_some (map (translate_block (t_name t)) l) in
  match f (t_share t), f (t_user t), f (t_declare t), f (t_initialize t), f (t_trace t), f (t_save t), f (t_final t), f (t_display t) with
  | Some a, Some b, Some c, Some d, Some e, Some g, Some i, Some k => Some (mkT (t_name t) (t_rest t) a b c d e g i k)
  | _, _, _, _, _, _, _, _ => None
  end.
(** the object at a place changes *)
Fixpoint put (h : heap) (a : nat) (t : ctype) : heap :=
  match h, a with [], _ => [] | _ :: r, O => t :: r | x :: r, S k => x :: put r k t end.
(** translators/c.py:253-258; the list of types is made before the loop.  False if it ends with an error; the blocks translated before the
    failing one within its type are not followed *)
Fixpoint translate_all (h : heap) (l : list nat) : heap * bool :=
  match l with
  | [] => (h, true)
  | a :: r =>
      match nth_error h a with
      | Some t => match translate_type t with Some t' => translate_all (put h a t') r | None => (h, false) end
      | None => translate_all h r
      end
  end.

(** what is written for the types: the shared code with the name of its type, the structures, the functions *)
Record output := mkO { o_share : list (string * list string); o_structs : list string; o_functions : list (string * string * list string) }.
(** a function is written if there is code for it: c_initialise.py:301, c_trace.py:109, c_save.py:48, c_finally.py:58, c_display.py:65 *)
Definition function (kind : string) (get : ctype -> list block) (t : ctype) : option (list (string * string * list string)) :=
  match get t with [] => Some [] | _ :: _ => option_map (fun c => [(kind, t_name t, c)]) (code (get t)) end.
(** such functions of all types *)
Definition functions (kind : string) (get : ctype -> list block) (ts : list ctype) : option (list (string * string * list string)) :=
  option_map (@concat _) (all_some (map (function kind get) ts)).
(** c_decls.py:91-108 *)
Definition shared_code (ts : list ctype) : option (list (string * list string)) :=
  all_some (map (fun t => option_map (fun c => (t_name t, c)) (code (t_share t))) (filter (fun t => match t_share t with [] => false | _ => true end) ts)).
(** translators/c.py:152-155, 271-277, 194-200, then declarations and functions in the order of target.py:147-173 *)
Definition write (ts : list ctype) : option output :=
  match all_some (map (fun t => code (t_share t)) ts), all_some (map (fun t => code (t_declare t)) ts), all_some (map (fun t => code (t_user t)) ts) with
  | Some _, Some _, Some _ =>
      match shared_code ts, functions "initialize" t_initialize ts, functions "trace" t_trace ts, functions "save" t_save ts, functions "finally" t_final ts, functions "display" t_display ts with
      | Some s, Some a, Some b, Some c, Some d, Some e => Some (mkO s (map t_name ts) (a ++ b ++ c ++ d ++ e))
      | _, _, _, _, _, _ => None
      end
  | _, _, _ => None
  end.
(** a translation: the objects afterwards, and what was written if there was no error *)
Definition translate (h : heap) (l : list nat) : heap * option output :=
  let (h', ok) := translate_all h (component_types h l) in
  (h', if ok then write (at_places h' (component_types h' l)) else None).
End Handle.

(** Instr.make_instance with the name of a component, instr.py:386-391: a new Reader reads its file, so there is a new object *)
Definition make_by_name (read : string -> ctype) (name : string) (x : heap * list nat) : heap * list nat := (fst x ++ [read name], snd x ++ [List.length (fst x)]).
(** Instr.make_instance with a component, instr.py:391 *)
Definition make_with (a : nat) (x : heap * list nat) : heap * list nat := (fst x, snd x ++ [a]).
