(** The report of a syntax error (C84): src/mccode_antlr/reader/reader.py and
    src/mccode_antlr/translators/c_listener.py. *)
From Coq Require Import List String Ascii Bool ZArith Arith Lia.
From Verif Require Import PyStr TextLines.
Import ListNotations.
Local Open Scope string_scope.
Local Open Scope list_scope.
Local Open Scope nat_scope.

(** a bound of a Python slice of a sequence of n elements *)
Definition bound (n : nat) (i : Z) : nat := if (i <? 0)%Z then Z.to_nat (Z.of_nat n + i) else Nat.min (Z.to_nat i) n.
(** l[i:j] *)
Definition slice {A} (l : list A) (i j : Z) : list A :=
  let a := bound (List.length l) i in firstn (bound (List.length l) j - a) (skipn a l).

(** '~' * n *)
Fixpoint tildes (n : nat) : string := match n with O => "" | S n => String "~" (tildes n) end.
(** logger.info of a line of the source, logger.error of the mark *)
Inductive message := Info (line : string) | Mark (text : string).
(** the end of a line *)
Definition newline : ascii := "010"%char.
(** reader.py:10-36 syntaxError of make_reader_error_listener with its default pre=5 and
    post=2, the same in c_listener.py:21-45; after the message with file, line and
    column.  Lines count from 1, columns from 0 (antlr4). *)
Definition report (source : string) (line column : nat) (msg : string) : list message :=
  let lines := split_char newline source in
  let l := Z.of_nat line in
  map Info (slice lines (l - 5) l) ++ [Mark (tildes column +++ "^ " +++ msg)] ++ map Info (slice lines l (l + 2)).
