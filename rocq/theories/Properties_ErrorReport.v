(** C84: the report of a syntax error shows the line in question above a mark. *)
From Coq Require Import List String Ascii Bool ZArith Arith Lia.
From Verif Require Import PyStr TextLines ErrorReport.
Import ListNotations.
Local Open Scope string_scope.
Local Open Scope list_scope.
Local Open Scope nat_scope.

(** A source with a place in it: the lines before, the line up to the place, the rest of
    the line, the lines after. *)
Record spot := mkSpot { above : list string; left : string; right : string; below : list string }.
Definition text (p : spot) : string := join (String newline "") (above p ++ [left p +++ right p] ++ below p).
Definition lines_ok (p : spot) : Prop := Forall (fun x => has_char newline x = false) (above p ++ [left p +++ right p] ++ below p).
(** where antlr4 reports it *)
Definition line_of (p : spot) : nat := S (List.length (above p)).
Definition column_of (p : spot) : nat := String.length (left p).
(** how many lines there are *)
Definition height (p : spot) : nat := List.length (above p) + 1 + List.length (below p).
Definition mark (p : spot) (msg : string) : message := Mark (tildes (column_of p) +++ "^ " +++ msg).

Lemma split_text p : lines_ok p -> split_char newline (text p) = above p ++ [left p +++ right p] ++ below p.
Proof. intro H. apply split_char_join; [|exact H]. destruct (above p); discriminate. Qed.
Lemma below_shown p : lines_ok p -> slice (split_char newline (text p)) (Z.of_nat (line_of p)) (Z.of_nat (line_of p) + 2) = firstn 2 (below p).
Proof.
  intro H. rewrite (split_text p H). unfold slice, bound, line_of. rewrite !app_length. cbn [List.length].
  set (a := List.length (above p)). set (b := List.length (below p)).
  destruct (Z.ltb_spec (Z.of_nat (S a)) 0); [lia|]. destruct (Z.ltb_spec (Z.of_nat (S a) + 2) 0); [lia|].
  replace (Nat.min (Z.to_nat (Z.of_nat (S a))) (a + (1 + b))) with (S a) by lia.
  rewrite app_assoc, skipn_app.
  assert (LA : List.length (above p ++ [left p +++ right p]) = S a) by (rewrite app_length; cbn; unfold a; lia).
  rewrite (skipn_all2 (above p ++ [left p +++ right p])) by lia. rewrite LA, Nat.sub_diag.
  cbn [app skipn]. replace (Nat.min (Z.to_nat (Z.of_nat (S a) + 2)) (a + (1 + b)) - S a) with (Nat.min 2 b) by lia.
  unfold b. destruct (below p) as [|x [|y t]]; reflexivity.
Qed.
Lemma above_shown p i j : lines_ok p -> bound (height p) i = j -> j <= List.length (above p) ->
  slice (split_char newline (text p)) i (Z.of_nat (line_of p)) = skipn j (above p) ++ [left p +++ right p].
Proof.
  intros H Hb Hj. rewrite (split_text p H). unfold slice.
  assert (E : List.length (above p ++ [left p +++ right p] ++ below p) = height p) by (rewrite !app_length; cbn [List.length]; unfold height; lia).
  rewrite E, Hb. unfold bound, line_of. destruct (Z.ltb_spec (Z.of_nat (S (List.length (above p)))) 0); [lia|].
  rewrite skipn_app. replace (j - List.length (above p)) with 0 by lia. change (skipn 0 ?x) with x.
  rewrite app_assoc, firstn_app.
  assert (L : List.length (skipn j (above p) ++ [left p +++ right p]) = Nat.min (Z.to_nat (Z.of_nat (S (List.length (above p))))) (height p) - j).
  { rewrite app_length, skipn_length. cbn [List.length]. unfold height. lia. }
  rewrite <- L, firstn_all, Nat.sub_diag. cbn [firstn]. apply app_nil_r.
Qed.

(* From the fifth line on, and in sources of fewer than five lines, the line in question
   stands directly above the mark, whose ^ is under the place; up to four lines before and
   two after it are shown. *)
Theorem C84_line_above_mark_partial : forall p msg, lines_ok p -> 5 <= line_of p \/ height p < 5 ->
  exists n, List.length (above p) <= n + 4 /\
  report (text p) (line_of p) (column_of p) msg =
    map Info (skipn n (above p) ++ [left p +++ right p]) ++ [mark p msg] ++ map Info (firstn 2 (below p)).
Proof.
  intros p msg H C. exists (bound (height p) (Z.of_nat (line_of p) - 5)).
  assert (B : bound (height p) (Z.of_nat (line_of p) - 5) <= List.length (above p) /\ List.length (above p) <= bound (height p) (Z.of_nat (line_of p) - 5) + 4).
  { unfold bound, line_of, height in *. destruct (Z.ltb_spec (Z.of_nat (S (List.length (above p))) - 5) 0); lia. }
  split; [apply B|]. unfold report. rewrite (above_shown p _ _ H eq_refl) by apply B. rewrite (below_shown p H). reflexivity.
Qed.
Print Assumptions C84_line_above_mark_partial.

(* In the first four lines of a source of five lines or more, neither the line in question
   nor any line before it is shown: the mark is under nothing. *)
Theorem C84_first_lines_refuted : forall p msg, lines_ok p -> line_of p < 5 -> 5 <= height p ->
  report (text p) (line_of p) (column_of p) msg = mark p msg :: map Info (firstn 2 (below p)).
Proof.
  intros p msg H C D. unfold report. rewrite (below_shown p H).
  assert (E : slice (split_char newline (text p)) (Z.of_nat (line_of p) - 5) (Z.of_nat (line_of p)) = []).
  { rewrite (split_text p H). unfold slice. rewrite !app_length. cbn [List.length].
    replace (List.length (above p) + (1 + List.length (below p))) with (height p) by (unfold height; lia).
    replace (bound (height p) (Z.of_nat (line_of p)) - bound (height p) (Z.of_nat (line_of p) - 5)) with 0; [reflexivity|].
    unfold bound. destruct (Z.ltb_spec (Z.of_nat (line_of p) - 5) 0); destruct (Z.ltb_spec (Z.of_nat (line_of p)) 0); lia. }
  rewrite E. reflexivity.
Qed.
Print Assumptions C84_first_lines_refuted.

(* The ^ of the mark is in the column of the place. *)
Theorem C84_mark_column : forall p msg, exists t, mark p msg = Mark t /\ String.get (column_of p) t = Some "^"%char /\
  (forall i, i < column_of p -> String.get i t = Some "~"%char).
Proof.
  intros p msg. eexists. split; [reflexivity|]. generalize (column_of p). intro c. induction c as [|c [IH1 IH2]].
  - split; [reflexivity|]. intros i Hi. lia.
  - split; [exact IH1|]. intros [|i] Hi; [reflexivity|]. apply IH2. lia.
Qed.
Print Assumptions C84_mark_column.

Definition five : spot := mkSpot ["DEFINE INSTRUMENT a()"; "TRACE"; "COMPONENT x = Arm()"; "AT (0,0,0) ABSOLUTE"] "COMPONENT y " "Arm()" ["END"; ""; ""].
Example C84_line_above_mark_example : lines_ok five /\ 5 <= line_of five /\
  report (text five) 5 12 "no ="  =
  [Info "DEFINE INSTRUMENT a()"; Info "TRACE"; Info "COMPONENT x = Arm()"; Info "AT (0,0,0) ABSOLUTE"; Info "COMPONENT y Arm()";
   Mark "~~~~~~~~~~~~^ no ="; Info "END"; Info ""].
Proof. split; [repeat constructor|]. split; vm_compute; repeat constructor. Qed.
Definition first : spot := mkSpot [] "DEFINE INSTRMENT" " a()" ["TRACE"; "COMPONENT x = Arm()"; "AT (0,0,0) ABSOLUTE"; "END"].
Example C84_first_lines_example : lines_ok first /\ line_of first < 5 /\ 5 <= height first.
Proof. split; [repeat constructor|]. split; vm_compute; repeat constructor. Qed.
