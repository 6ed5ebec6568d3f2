(** The functions init, save, finally and display of the generated C, and the functions of component types they call: translators/c_initialise.py:102-224, 227-323, c_save.py, c_finally.py:1-80, c_display.py.

    Simplifications: a block of C is an opaque text whose execution is one event; of the set-up function of an instance only the vectors it allocates and that it places the instance are kept (Setpos.v and Placement.v have the rest);
    vectors are vectors of numbers; macros are the subject of CText.v. *)
From Coq Require Import List String Ascii Bool NArith ZArith Arith Lia.
From Verif Require Import PyStr.
Import ListNotations.
Local Open Scope string_scope.
Local Open Scope list_scope.
Local Open Scope nat_scope.

(** a block of C: its text, and file and line where it begins (RawC, common/block.py:4-8) *)
Record block := mkBlock { b_text : string; b_file : string; b_line : nat }.
(** a component type, comp/comp.py:8-30: name, SETTING parameters with whether the default value is a known vector, and blocks *)
Record ctype := mkType { t_name : string; t_setting : list (string * bool); t_init : list block; t_save : list block; t_final : list block; t_display : list block }.
(** an instance: name, type and given parameters, with whether the value is a known vector *)
Record inst := mkInst { i_name : string; i_type : ctype; i_pars : list (string * bool) }.
(** Instr, instr/instr.py:20-34 *)
Record source := mkSource { s_name : string; s_init : list block; s_save : list block; s_final : list block; s_comps : list inst }.

(** * The emitted program *)
(** arguments of calls: none, the address of the variable of an instance, or a file handle *)
Inductive arg := ANone | AComp (i : string) | AHandle.
(** the statements of the generated functions *)
Inductive stmt :=
| Message (t f : string) (l : nat)      (* SIG_MESSAGE with the text t and the place f:l *)
| Code (b : block)
| Call (f : string) (a : arg)
| IfTracing (f : string)                (* if (mcdotrace) f(); *)
| IfNoHandle (s : bool)                 (* if (!handle) siminfo_init or, with false, siminfo_close *)
| Open | Close
| Say (t : string)
| SayName (i : string)                  (* printf of the name of the component in the variable of i *)
| SayOwnName                            (* printf of _comp->_name *)
| Calloc (i p : string) | Free (i p : string) | Place (i : string).
(** a generated function: name and statements *)
Definition func := (string * list stmt)%type.

(** instr/instr.py:207-211 component_types: equal types are kept once, in order; types that differ only in what is left out here are not told apart *)
Definition block_dec (a b : block) : {a = b} + {a <> b}. Proof. decide equality; auto using string_dec, Nat.eq_dec. Defined.
(** the operator == of Python on component types *)
Definition ctype_dec (a b : ctype) : {a = b} + {a <> b}.
Proof. decide equality; try apply string_dec; try (apply list_eq_dec; apply block_dec). apply list_eq_dec. decide equality; [apply bool_dec|apply string_dec]. Defined.
(** dict.fromkeys, instr/instr.py:207-211 *)
Definition keep (acc : list ctype) (t : ctype) : list ctype := if in_dec ctype_dec t acc then acc else acc ++ [t].
(** instr/instr.py:207-211 *)
Definition component_types (so : source) : list ctype := fold_left keep (map i_type (s_comps so)) [].

(** c_initialise.py:227-254: the file and line of the first block *)
Definition place (default : string) (l : list block) : string * nat := match l with b :: _ => (b_file b, b_line b) | [] => (default, 0) end.
(** len(x) == 0 *)
Definition is_nil {A} (l : list A) : bool := match l with [] => true | _ => false end.
(** the name of the function of a component type, c_initialise.py:299-322 *)
Definition class_name (t sec : string) : string := ("class_" ++ t ++ "_" ++ sec)%string.
(** instance.py:162-166 get_parameter, whether the value is a known vector; the fallback is the default of the same parameter *)
Fixpoint given (n : string) (l : list (string * bool)) : option bool := match l with [] => None | (m, v) :: l => if m =?s n then Some v else given n l end.
(** c_initialise.py:105-150, 193-195: the vectors allocated in _X_setpos *)
Definition allocations (i : inst) : list stmt :=
  flat_map (fun dv : string * bool => if match given (fst dv) (i_pars i) with Some v => v | None => snd dv end then [Calloc (i_name i) (fst dv)] else []) (t_setting (i_type i)).
(** c_initialise.py:177-224 *)
Definition setpos_name (i : inst) : string := ("_" ++ i_name i ++ "_setpos")%string.
(** c_initialise.py:102-211, the statements that concern us *)
Definition setpos (i : inst) : func :=
  let '(f, l) := place (i_name i) (t_init (i_type i)) in
  (setpos_name i, Message (setpos_name i) f l :: allocations i ++ [Place (i_name i)]).
(** c_initialise.py:299-323 *)
Definition init_class (t : ctype) : list func :=
  if is_nil (t_init t) then [] else let '(f, l) := place (t_name t) (t_init t) in [(class_name (t_name t) "initialize", Message (t_name t ++ "_initialize") f l :: map Code (t_init t))].
(** c_save.py:46-70: the place is taken from INITIALIZE *)
Definition save_class (t : ctype) : list func :=
  if is_nil (t_save t) then [] else let '(f, l) := place (t_name t) (t_init t) in [(class_name (t_name t) "save", Message (t_name t ++ "_save") f l :: map Code (t_save t))].
(** c_finally.py:56-80 *)
Definition final_class (t : ctype) : list func :=
  if is_nil (t_final t) then [] else let '(f, l) := place (t_name t) (t_final t) in [(class_name (t_name t) "finally", Message (t_name t ++ "_finally") f l :: map Code (t_final t))].
(** c_display.py:63-88: the place is that of DISPLAY only if there is a FINALLY *)
Definition display_class (t : ctype) : list func :=
  if is_nil (t_display t) then [] else
  let '(f, l) := if is_nil (t_final t) then (t_name t, 0) else place (t_name t) (t_display t) in
  [(class_name (t_name t) "display", Message (t_name t ++ "_display") f l :: SayOwnName :: map Code (t_display t))].
(** the message before the code of a component type, c_save.py:46-69 *)
Definition messages (n sec : string) (l : list block) : list stmt := match l with [] => [] | b :: _ => [Message (n ++ " " ++ sec) (b_file b) (b_line b)] end.
(** the call for one instance, c_save.py:1-43 *)
Definition calls (sec : string) (blocks : ctype -> list block) (i : inst) : list stmt := if is_nil (blocks (i_type i)) then [] else [Call (class_name (t_name (i_type i)) sec) (AComp (i_name i))].
(** c_initialise.py:243-294 *)
Definition init_main (so : source) : func :=
  ("init", messages (s_name so) "INITIALIZE" (s_init so) ++ map Code (s_init so) ++ map (fun i => Call (setpos_name i) ANone) (s_comps so) ++ flat_map (calls "initialize" t_init) (s_comps so) ++ [IfTracing "display"]).
(** c_save.py:10-43 *)
Definition save_main (so : source) : func :=
  ("save", IfNoHandle true :: messages (s_name so) "SAVE" (s_save so) ++ map Code (s_save so) ++ flat_map (calls "save" t_save) (s_comps so) ++ [IfNoHandle false]).
(** c_finally.py:40-43: the vectors given to the instance *)
Definition frees (i : inst) : list stmt := flat_map (fun pv : string * bool => if snd pv then [Free (i_name i) (fst pv)] else []) (i_pars i).
(** c_finally.py:10-52 *)
Definition final_main (so : source) : func :=
  ("finally", Open :: Call "save" AHandle :: messages (s_name so) "FINALLY" (s_final so) ++ map Code (s_final so) ++ flat_map (fun i => calls "finally" t_final i ++ frees i) (s_comps so) ++ [Close]).
(** c_display.py:21-59 *)
Definition display_main (so : source) : func :=
  ("display", Say "MCDISPLAY: start" :: flat_map (fun i => if is_nil (t_display (i_type i)) then [SayName (i_name i)] else calls "display" t_display i) (s_comps so) ++ [Say "MCDISPLAY: end"]).
(** the sections in the order of the file, translators/target.py and c.py; C finds functions by name *)
Definition program (so : source) : list func :=
  map setpos (s_comps so) ++ flat_map init_class (component_types so) ++ [init_main so] ++ flat_map save_class (component_types so) ++ [save_main so]
  ++ flat_map final_class (component_types so) ++ [final_main so] ++ flat_map display_class (component_types so) ++ [display_main so].

(** * Execution of the C program *)
Inductive event :=
| Ran (i : option string) (text : string)    (* user code, in the function of an instance or of the instrument *)
| Placed (i : string) | Allocated (i p : string) | Freed (i p : string) | Opened | Closed | Said (t : string).
Section Exec.
  Variable prog : list func.
  (** whether mcdotrace is set, and whether siminfo_file is a file after siminfo_init *)
  Variable tracing opened : bool.
  (** the C linker: a function by its name *)
  Definition find_func (f : string) : option (list stmt) := match find (fun x : func => fst x =?s f) prog with Some x => Some (snd x) | None => None end.
  (** the instance whose variable is handed over *)
  Definition comp_of (a : arg) : option string := match a with AComp i => Some i | _ => None end.
  (** statements one after the other *)
  Fixpoint all (step : stmt -> option (list event)) (l : list stmt) : option (list event) :=
    match l with [] => Some [] | s :: l => match step s, all step l with Some x, Some y => Some (x ++ y) | _, _ => None end end.
  (** None: no such function, no _comp, or calls nested deeper than the fuel *)
  Fixpoint run (fuel : nat) (f : string) (a : arg) : option (list event) :=
    match fuel with
    | 0 => None
    | S fuel =>
        let step (s : stmt) : option (list event) :=
          match s with
          | Message _ _ _ => Some []
          | Code b => Some [Ran (comp_of a) (b_text b)]
          | Call g b => run fuel g b
          | IfTracing g => if tracing then run fuel g ANone else Some []
          | IfNoHandle o => if match a with AHandle => opened | _ => false end then Some [] else Some [if o then Opened else Closed]
          | Open => Some [Opened]
          | Close => Some [Closed]
          | Say t => Some [Said t]
          | SayName i => Some [Said ("MCDISPLAY: component " ++ i)]
          | SayOwnName => match a with AComp i => Some [Said ("MCDISPLAY: component " ++ i)] | _ => None end
          | Calloc i p => Some [Allocated i p]
          | Free i p => Some [Freed i p]
          | Place i => Some [Placed i]
          end in
        match find_func f with
        | None => None
        | Some body => all step body
        end
    end.
End Exec.
