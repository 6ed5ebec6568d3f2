(** The compiler and linker flags of an instrument: DEPENDENCY strings (comp/visitor.py:136-139, instr/visitor.py:287-289), the keywords
    in them (Instr._replace_keywords, instr/instr.py:268-287), and the flags handed to the compiler (instr.py:289-305,
    compiler/c.py:100-101, translators/c.py:428-432).
    Simplified: the characters of a name in a keyword are the ASCII ones; a configured value is a text, with the environment variables of
    as_str_expanded already put in. *)
From Coq Require Import List String Ascii Bool Arith Lia.
From Verif Require Import PyStr Flags Target.
Import ListNotations.
Local Open Scope string_scope.
Local Open Scope list_scope.
Local Open Scope nat_scope.

(** the double quote *)
Definition quote : ascii := "034"%char.
(** the backslash *)
Definition backslash : ascii := "092"%char.
(** str.lstrip of double quotes, comp/visitor.py:139 *)
Fixpoint lstrip_quotes (s : string) : string := match s with String c t => if Ascii.eqb c quote then lstrip_quotes t else s | EmptyString => "" end.
(** str.rstrip of double quotes, comp/visitor.py:139 *)
Fixpoint rstrip_quotes (s : string) : string :=
  match s with
  | EmptyString => ""
  | String c t => match rstrip_quotes t with EmptyString => if Ascii.eqb c quote then "" else String c "" | r => String c r end
  end.
(** comp/visitor.py:139: the flags of a component are its literal after strip of every quote at the ends *)
Definition comp_dependency (literal : string) : string := rstrip_quotes (lstrip_quotes literal).
(** s[:-1] *)
Fixpoint but_last (s : string) : string := match s with EmptyString => "" | String c EmptyString => "" | String c t => String c (but_last t) end.
(** instr/visitor.py:289: the flags of an instrument are its literal without the first and the last character *)
Definition instr_dependency (literal : string) : string := but_last (drop 1 literal).

(** the characters that \w stands for *)
Definition is_word (c : ascii) : bool :=
  let n := nat_of_ascii c in (48 <=? n) && (n <=? 57) || (65 <=? n) && (n <=? 90) || (97 <=? n) && (n <=? 122) || (n =? 95).
(** the longest prefix of such characters, and the rest *)
Fixpoint word_prefix (s : string) : string * string :=
  match s with
  | String c t => if is_word c then let '(w, r) := word_prefix t in (String c w, r) else ("", s)
  | EmptyString => ("", "")
  end.
(** findall with the expression of instr.py:277: every @name@ from the left, none of which overlap *)
Fixpoint findall_fuel (fuel : nat) (s : string) : list string :=
  match fuel with
  | O => []
  | S fuel =>
      match s with
      | EmptyString => []
      | String c t =>
          if Ascii.eqb c "@" then
            match word_prefix t with
            | (String a w, String b r) => if Ascii.eqb b "@" then String a w :: findall_fuel fuel r else findall_fuel fuel t
            | _ => findall_fuel fuel t
            end
          else findall_fuel fuel t
      end
  end.
(** re.findall, instr.py:277 *)
Definition findall (s : string) : list string := findall_fuel (S (String.length s)) s.

(** what re.sub puts in the place of a match: a backslash in the replacement is an escape, and a bad one raises. Digits after a backslash
    are group numbers, of which the expressions here have none (the octal forms and \g<0> are left out: they count as errors). *)
Definition letter (c : ascii) : bool := is_word c && negb (let n := nat_of_ascii c in (48 <=? n) && (n <=? 57) || (n =? 95)).
(** re.sub: a backslash and a character in the replacement *)
Definition escape (c : ascii) : option string :=
  if Ascii.eqb c backslash then Some (String backslash "")
  else if Ascii.eqb c "n" then Some (String "010"%char "") else if Ascii.eqb c "t" then Some (String "009"%char "")
  else if Ascii.eqb c "r" then Some (String "013"%char "") else if Ascii.eqb c "a" then Some (String "007"%char "")
  else if Ascii.eqb c "b" then Some (String "008"%char "") else if Ascii.eqb c "f" then Some (String "012"%char "")
  else if Ascii.eqb c "v" then Some (String "011"%char "")
  else if letter c || (let n := nat_of_ascii c in (48 <=? n) && (n <=? 57)) then None
  else Some (String backslash (String c "")).
(** re.sub: the replacement without its escapes *)
Fixpoint template (s : string) : option string :=
  match s with
  | EmptyString => Some ""
  | String c t =>
      if Ascii.eqb c backslash then
        match t with
        | EmptyString => None
        | String e r => match escape e, template r with Some a, Some b => Some (a ++ b)%string | _, _ => None end
        end
      else match template t with Some b => Some (String c b) | None => None end
  end.
(** every place of a text, from the left, put in for another; the text looked for is not empty *)
Fixpoint replace_all_fuel (fuel : nat) (key v s : string) : string :=
  match fuel with
  | O => s
  | S fuel =>
      match s with
      | EmptyString => ""
      | String c t => if startswith key s then (v ++ replace_all_fuel fuel key v (drop (String.length key) s))%string else String c (replace_all_fuel fuel key v t)
      end
  end.
(** re.sub of a plain text *)
Definition replace_all (key v s : string) : string := replace_all_fuel (S (String.length s)) key v s.
(** re.sub(key, repl, s) for a key without special characters *)
Definition sub (key repl s : string) : option string := match template repl with Some v => Some (replace_all key v s) | None => None end.
(** @name@ *)
Definition at_name (w : string) : string := ("@" ++ w ++ "@")%string.
(** s.lower()[:-5], for a name that ends with flags *)
Definition stem (w : string) : string := let l := lower w in substring 0 (String.length l - 5) l.

Section Config.
  (** config['flags'], by key *)
  Variable cfg : string -> option string.
  (** one turn of the loop, instr.py:278-286 *)
  Definition keyword_step (flag w : string) : option string :=
    if endswith "flags" (lower w) then
      match cfg (stem w) with
      | Some v => sub (at_name w) v flag
      | None => sub (at_name w) ("-l" ++ stem w)%string flag
      end
    else Some flag.
  (** instr.py:278-286 for every match *)
  Fixpoint keyword_loop (flag : string) (ws : list string) : option string :=
    match ws with
    | [] => Some flag
    | w :: r => match keyword_step flag w with Some f => keyword_loop f r | None => None end
    end.
  (** _replace_keywords, instr.py:268-287 *)
  Definition replace_keywords (flag : string) : option string :=
    match (if contains "@NEXUSFLAGS@" flag then match cfg "nexus" with Some v => sub "@NEXUSFLAGS@" v flag | None => None end else Some flag) with
    | None => None
    | Some f1 =>
        match (if contains "@MCCODE_LIB@" f1 then sub "@MCCODE_LIB@" "." f1 else Some f1) with
        | None => None
        | Some f2 => keyword_loop f2 (findall f2)
        end
    end.
  (** _replace_env_getpath_cmd, instr.py:226-266, which may raise (Flags.v) *)
  Variables env getpath cmd : string -> option string.
  (** Instr.decoded_flags, instr.py:299-305, for one flag *)
  Definition decode (flag : string) : option string :=
    match replace_keywords flag with
    | Some f => match expand env getpath cmd f with Done s => Some s | _ => None end
    | None => None
    end.
  (** Instr.decoded_flags for all flags *)
  Fixpoint decode_list (l : list string) : option (list string) :=
    match l with
    | [] => Some []
    | f :: r => match decode f, decode_list r with Some x, Some y => Some (x :: y) | _, _ => None end
    end.
End Config.

(** unique_flags, instr.py:289-297: the members of the set *)
Definition unique_flags (flags : list string) (cpu : list bool) : list string :=
  nodup string_dec (flags ++ if existsb (fun b => b) cpu then ["-DFUNNEL"] else []).
(** decoded_flags, instr.py:299-305. A set has no order of its own: [order] is the one in which it is gone through. *)
Definition decoded_flags cfg env getpath cmd (order : list string -> list string) (flags : list string) (cpu : list bool) : option (list string) :=
  decode_list cfg env getpath cmd (order (unique_flags flags cpu)).
(** compiler/c.py:97-101: the words after the linker's own *)
Definition linker_words (l : list string) : list string := flat_map words l.
