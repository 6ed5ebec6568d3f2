(** The table of metadata in the generated C source: common/metadata.py:46-54, translators/c_decls.py:80-89, and the visitors that make
    the metadata of instrument and component files. *)
From Coq Require Import List String Ascii Bool NArith Arith Lia.
From Verif Require Import PyStr CText InstrModel.
Import ListNotations.
Local Open Scope string_scope.
Local Open Scope list_scope.
Local Open Scope nat_scope.

(** the code points of a text; the texts here have code points below 256, C45 is about all *)
Definition codes (s : string) : list N := map N_of_ascii (list_ascii_of_string s).

(** the two tokens behind METADATA, McCommon.g4:31: Identifier or StringLiteral *)
Inductive word := WId (s : string) | WStr (s : string).
(** instr/visitor.py:337-338, comp/visitor.py:231-232: text[1:-1] of a string literal *)
Definition word_text (w : word) : string :=
  match w with WId s => s | WStr s => String.substring 1 (String.length s - 2) s end.
(** str.startswith of a character *)
Definition first_is (c : ascii) (s : string) : bool := match s with String d _ => Ascii.eqb d c | EmptyString => false end.
(** str.endswith of a character *)
Fixpoint last_char (c : ascii) (s : string) : bool := match s with EmptyString => false | String d EmptyString => Ascii.eqb d c | String _ r => last_char c r end.
(** the double quote *)
Definition dq : ascii := """".
(** metadata.py:47-50; a name with a blank is not empty *)
Definition quoted_name (n : string) : string :=
  if has_char " " n && (negb (first_is dq n) || negb (last_char dq n)) then String dq (n +++ String dq "") else n.
(** metadata.py:52-53 *)
Definition bare_value (v : string) : string :=
  if startswith "%{" v && endswith "%}" v then String.substring 2 (String.length v - 4) v else v.
(** metadata.py:45-54 partial_from_tokens *)
Definition partial_from_tokens (source mime name value : string) : meta := mkMeta source (quoted_name name) mime (bare_value value).
(** visitInstrument_metadata, instr/visitor.py:48-52, the same at :145-150 for an instance, comp/visitor.py:229-234 for a component;
    the block comes without its ends, instr/visitor.py:347 *)
Definition from_tokens (source : string) (mime name : word) (block : string) : meta :=
  partial_from_tokens source (word_text mime) (word_text name) block.

(** one_line, c_decls.py:81-83: only the value is escaped *)
Definition one_line (m : meta) : list N :=
  codes (" {" +++ String dq "") ++ codes (m_source m) ++ codes (String dq (", " +++ String dq "")) ++ codes (m_name m)
  ++ codes (String dq (", " +++ String dq "")) ++ codes (m_mime m) ++ codes (String dq (", " +++ String dq "")) ++ escape (codes (m_value m))
  ++ codes (String dq "}, ").
(** a line end *)
Definition nl : list N := [10%N].
(** c_decls.py:85-89: the lines, joined by line ends *)
Definition head_line : list N := codes "struct metadata_table_struct metadata_table[] = {".
(** an empty text in C *)
Definition q2 : string := String dq (String dq "").
(** the last line of the table, c_decls.py:85-89 *)
Definition last_line : list N := codes ("  {" +++ q2 +++ ", " +++ q2 +++ ", " +++ q2 +++ ", " +++ q2 +++ "}").
(** c_decls.py:80-89 *)
Definition metadata_table (s : instr) : list N :=
  let ms := collect_metadata s in
  head_line ++ nl ++ flat_map (fun m => one_line m ++ nl) ms ++ last_line ++ nl ++ codes "};" ++ nl
  ++ codes ("int num_metadata = " +++ str_nat (List.length ms) +++ ";").
