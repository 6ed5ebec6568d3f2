(** The HTML view of an instrument: Instr._my_repr_html_, instr/instr.py:88-117, that is Instr.to_file with an HTMLWrapper,
    common/textwrap.py:222-326; instr/instr.py:36-76, instr/instance.py:40-71 and 249-255, instr/jump.py:13-22, common/parameters.py:12-30 and 56-67,
    common/metadata.py:42-43, reader/registry.py:128-135 and 286-291.  The instrument and the text of the other wrapper are those of InstrChars.v.

    Simplifications.  Only the body of the page is modelled, not its title, style and script.  The random identifier that hide makes (textwrap.py:323) is an
    arbitrary function of what is hidden.  The blanks that strip removes at the ends of a parameter (common/parameters.py:32, 60) are left. *)
From Coq Require Import List String Ascii Bool Arith ZArith QArith Qcanon Lia.
From Verif Require Import PyStr Expr Print Lexer ExprChars InstrModel InstrChars.
From Verif Require InstanceText.
Import ListNotations.
Import InstanceText (ci, mkCi, c_name, c_type, c_params, c_removable, c_cpu, c_split, c_when, c_at, c_at_rel, c_rot, c_rot_rel, c_group, c_extend, c_jump, c_meta,
  newline, is_null).
Local Open Scope string_scope.
Local Open Scope list_scope.
Local Open Scope nat_scope.

(** html.escape, quote=True; textwrap.py:296-298 *)
Definition escape_char (c : ascii) : string :=
  if Ascii.eqb c "&" then "&amp;" else if Ascii.eqb c "<" then "&lt;" else if Ascii.eqb c ">" then "&gt;"
  else if Ascii.eqb c """" then "&quot;" else if Ascii.eqb c "'" then "&#x27;" else String c "".
(** html.escape, textwrap.py:296-298 *)
Fixpoint escape (s : string) : string := match s with EmptyString => "" | String c r => (escape_char c ++ escape r)%string end.

(** * The wrapper *)
Section Wrapper.
  Variable num : Qc -> string.
  Variable uid : string -> string.
  Local Notation sh := (show num).
  (** textwrap.py:244-245, 225-227 *)
  Definition h_line (name : string) (items : list string) : string := "<b>" ++ name ++ "</b> " ++ join " " items ++ "<br>".
  (** textwrap.py:247-248 *)
  Definition h_quoted_line (name : string) (items : list string) : string := "<b>" ++ name ++ "</b> " ++ """" ++ join " " items ++ """" ++ "<br>".
  (** textwrap.py:304-306 *)
  Definition h_bold (s : string) : string := "<b style=""font-size:small"">" ++ s ++ "</b>".
  (** textwrap.py:316-326; the classes are those of instr.py:90 *)
  Definition h_hide (s : string) : string :=
    if s =?s "" then s else
    "<span class=""hider"" data-id=""g-" ++ uid s ++ """>" ++ "<span class=""hidden"" id=""g-" ++ uid s ++ """>" ++ s ++ "</span>" ++ "</span>".
  (** textwrap.py:241-242 *)
  Definition h_block (name content : string) : string := h_bold name ++ " %{" ++ h_hide ("<pre>" ++ content ++ "</pre><br>") ++ "%} ".
  (** textwrap.py:241-242 for several blocks *)
  Definition h_blocks (name : string) (l : list string) : string := match l with [] => "" | _ => h_block name (join newline l) ++ newline end.
  (** textwrap.py:253-255 *)
  Definition h_meta (m : string * string * string) : string :=
    let '(mime, n, v) := m in
    "<b>" ++ "METADATA" ++ "</b> <code>" ++ """" ++ mime ++ """" ++ "</code>" ++ """" ++ " <var>" ++ n ++ "</var> %{<pre>" ++ v ++ "</pre>%}" ++ newline.
  (** textwrap.py:261-263, 269-270 *)
  Definition h_parameter (n : string) : string := "<var>" ++ n ++ "</var>".
  (** textwrap.py:261-263, 269-270 *)
  Definition h_value (v : string) : string := "<code>" ++ escape v ++ "</code>".

  (** * The writers *)
  (** instance.py:249-255 with the words of 50-53 *)
  Definition h_clause (kw : string) (t : triple) (r : option string) (required : bool) : string :=
    if is_null t && (match r with None => true | _ => false end) && negb required then ""
    else h_bold kw ++ " " ++ triple_text num t ++ " " ++ match r with None => h_bold "ABSOLUTE" | Some n => h_bold "RELATIVE" ++ " " ++ n end.
  (** parameters.py:66-67 *)
  Definition h_param (p : string * node) : string := h_parameter (fst p) ++ "=" ++ h_value (sh (snd p)).
  (** jump.py:16-20 *)
  Definition jump_name (j : jump) : string :=
    let n := j_target j in
    let n := if has_char "_" n && (startswith "PREVIOUS" n || startswith "NEXT" n)
             then match split_char "_" n with x :: _ => x | [] => n end else n in
    if (1 <? Z.abs (j_rel j))%Z then (n ++ " (" ++ str_nat (Z.abs_nat (j_rel j)) ++ ")")%string else n.
  (** jump.py:21-22 *)
  Definition h_jump (j : jump) : string := h_line "JUMP" [jump_name j; if j_iter j then "ITERATE" else "WHEN"; sh (j_cond j)] ++ newline.
  (** instance.py:44-58 *)
  Definition h_head (c : ci) : string :=
    h_bold "COMPONENT" ++ " " ++ c_name c ++ " = " ++ c_type c ++ "(" ++ h_hide (join ", " (map h_param (c_params c))) ++ ") " ++
    match c_when c with Some e => h_bold "WHEN" ++ " " ++ escape (sh e) ++ " " | None => "" end ++
    h_clause "AT" (c_at c) (c_at_rel c) true ++ " " ++ h_clause "ROTATED" (c_rot c) (c_rot_rel c) false ++ "<br>".
  (** instance.py:63-71 *)
  Definition h_tail (c : ci) : string :=
    match c_group c with Some g => h_line "GROUP" [g] ++ newline | None => "" end ++
    h_blocks "EXTEND" (c_extend c) ++ String.concat "" (map h_jump (c_jump c)) ++ String.concat "" (map h_meta (c_meta c)).
  (** instance.py:40-71 *)
  Definition h_inst (c : ci) : string := (if c_cpu c then h_line "CPU" [] else "") ++ h_head c ++ h_tail c.
  (** parameters.py:12-26; textwrap.py:257-267 *)
  Definition h_par (p : par) : string :=
    "<code>" ++ match p_kind p with KStr => "string " | KInt => "int " | KFloat => "" end ++ "</code>" ++ h_parameter (p_name p) ++
    match p_unit p with Some u => "/" ++ u | None => "" end ++
    match p_value p with Some e => if constant e then "=" ++ h_value (sh e) else "" | None => "" end.
  (** one line for a registry, registry.py:128-135 and 286-291: its class and its keys, the last flag for a value that is written as a link *)
  Definition h_link (s : string) : string := "<a href=""" ++ s ++ """>" ++ s ++ "</a>".
  (** registry.py:128-135 and 286-291 with the wrapper for HTML *)
  Definition h_registry (r : string * list (string * string * bool)) : string :=
    h_line (fst r) [("(" ++ join ", " (map (fun x => let '(k, v, u) := x in (h_parameter k ++ "=" ++ if u : bool then h_link v else h_value v)%string) (snd r)) ++ ")")%string] ++ newline.
  (** registry.py:128-135 and 286-291 with the wrapper for text *)
  Definition t_registry (r : string * list (string * string * bool)) : string :=
    line (fst r) [("(" ++ join ", " (map (fun x => let '(k, v, _) := x in (k ++ "=" ++ v)%string) (snd r)) ++ ")")%string].
  (** instr.py:42-49; textwrap.py:233-239 *)
  Definition h_comment (name : string) (source : option string) (included names : list string) (registries : list (string * list (string * string * bool))) : string :=
    "<details><summary>" ++ "Instrument " ++ name ++ "</summary>" ++ newline ++ h_line "Instrument:" [or_none name] ++ newline ++
    h_line "Source:" [match source with Some s => or_none s | None => "None" end] ++ newline ++
    h_line "Contains:" (map (fun s => ("""" ++ "%include " ++ s ++ """")%string) included) ++ newline ++
    h_line "Registries:" names ++ newline ++ String.concat "" (map h_registry registries) ++ "</details>" ++ newline.
  (** instr.py:51-76; textwrap.py:272-286 *)
  Definition h_body (i : ins) : string :=
    h_line "DEFINE INSTRUMENT" [(i_name i ++ "(" ++ h_hide (join ", " (map h_par (i_pars i))) ++ ")")%string] ++ newline ++
    String.concat "" (map h_meta (i_meta i)) ++
    match i_flags i with [] => "" | l => h_quoted_line "DEPENDENCY " l ++ newline end ++
    h_blocks "DECLARE" (i_declare i) ++ h_blocks "USERVARS" (i_user i) ++ h_blocks "INITIALIZE" (i_init i) ++
    "<ul> TRACE" ++ newline ++ String.concat "" (map (fun c => ("<li>" ++ newline ++ h_inst c ++ "</li>" ++ newline)%string) (i_comps i)) ++
    h_blocks "SAVE" (i_save i) ++ h_blocks "FINALLY" (i_final i) ++ "</ul> END" ++ newline.
End Wrapper.
