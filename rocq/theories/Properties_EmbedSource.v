(** Properties of the instrument file inside the executable: C87. *)
From Coq Require Import List Bool NArith String Ascii Lia.
From Verif Require Import CText Properties_CText EmbedSource.
Import ListNotations.
Local Open Scope N_scope.
Local Open Scope list_scope.

(** * C87 An executable made with the option --source carries the text that its instrument was read from *)

(** a character of ordinary source text *)
Definition plain (c : N) : Prop := c = 9 \/ c = 10 \/ 32 <= c < 127.
(** a letter, a digit or an underscore *)
Definition word (c : N) : Prop := 48 <= c <= 57 \/ 65 <= c <= 90 \/ c = 95 \/ 97 <= c <= 122.
(** a character of a path without surprises: printable, and no question mark *)
Definition path_character (c : N) : Prop := 32 <= c < 127 /\ c <> 63.
(** the text of a C array of characters: its bytes *)
Definition holds_text (l : list N) (t : Text) : Prop := c_reads l = Some (bytes t).

Lemma newlines_no_cr t : Forall (fun c => c <> 13) (newlines t).
Proof.
  assert (H : forall n t, (List.length t <= n)%nat -> Forall (fun c => c <> 13) (newlines t)).
  { clear t. induction n as [|n IH]; intros [|c r] L; cbn [List.length] in L; try lia; try constructor.
    assert (E : newlines (c :: r) = if c =? 13 then (match r with 10 :: r' => 10 :: newlines r' | _ => 10 :: newlines r end) else c :: newlines r).
    { destruct (N.eqb_spec c 13) as [->|D]; [reflexivity|]. cbn [newlines]. destruct c as [|[[[[?|?|]|[?|?|]|]|[[?|?|]|[?|?|]|]|]|[[[?|?|]|[?|?|]|]|[[?|?|]|[?|?|]|]|]|]]; try reflexivity; now contradiction D. }
    rewrite E. destruct (N.eqb_spec c 13) as [->|D].
    - destruct r as [|x r']; [repeat constructor; discriminate|]. cbn [List.length] in L.
      assert (A : Forall (fun c => c <> 13) (10 :: newlines (x :: r'))) by (constructor; [discriminate|apply IH; cbn [List.length]; lia]).
      assert (B : Forall (fun c => c <> 13) (10 :: newlines r')) by (constructor; [discriminate|apply IH; lia]).
      destruct x as [|[[[[?|?|]|[?|?|]|]|[[?|?|]|[?|?|]|]|]|[[[?|?|]|[?|?|]|]|[[?|?|]|[?|?|]|]|]|]]; first [exact A|exact B].
    - constructor; [exact D|]. apply IH. lia. }
  now apply (H (List.length t)).
Qed.

(** Reading and translating the same file: the executable holds the very text that the instrument was made from,
    exactly if that text survives in a C string; a text with trigraphs is left out. *)
Theorem C87_embedded_text_is_the_text_read {Body : Type} (parse : Text -> option (Text * Body)) d d' p i t c :
  read_text d p = Some t -> get_instrument parse d p = Some i -> d' p = d p -> c_embed c = true ->
  exists h, header_post_runtime d' i c = Some h /\ parse t = Some (i_name i, i_body i) /\
  (text t -> no_trigraph t -> (holds_text (h_code h) t <-> survives t)).
Proof.
  intros R G D E. unfold get_instrument in G. rewrite R in G. destruct (parse t) as [[n b]|] eqn:P; [|discriminate]. injection G as <-.
  assert (R' : read_text d' p = Some t) by (unfold read_text in *; now rewrite D).
  assert (A : exists_ d' p = true /\ readable d' p = true).
  { unfold exists_, readable. unfold read_text in R'. destruct (d' p); try discriminate. split; reflexivity. }
  destruct A as [A1 A2]. unfold header_post_runtime, source_file_contents. cbn [i_source i_name i_body]. rewrite E, A1, A2, R'. cbn [andb option_map].
  eexists. split; [reflexivity|]. split; [reflexivity|]. cbn [h_code]. exact (C45_literal_reads_as_text_partial t).
Qed.
Print Assumptions C87_embedded_text_is_the_text_read.

(** For a file of ordinary text nothing is left open: the command with --source gives an executable with the text of the file. *)
Theorem C87_ordinary_file_is_embedded {Body : Type} (parse : Text -> option (Text * Body)) d p f i no_main :
  d p = Holds f -> Forall plain f -> no_trigraph f -> get_instrument parse d p = Some i ->
  exists h, header_post_runtime d i (translate_config true no_main) = Some h /\ c_reads (h_code h) = Some f.
Proof.
  intros D F T G.
  assert (N : newlines f = f).
  { clear -F. induction F as [|c r H _ IH]; [reflexivity|]. unfold plain in H.
    destruct c as [|[[[[?|?|]|[?|?|]|]|[[?|?|]|[?|?|]|]|]|[[[?|?|]|[?|?|]|]|[[?|?|]|[?|?|]|]|]|]]; cbn [newlines]; try (now rewrite IH); lia. }
  assert (R : read_text d p = Some f) by (unfold read_text; now rewrite D, N).
  unfold get_instrument in G. rewrite R in G. destruct (parse f) as [[n b]|]; [|discriminate]. injection G as <-.
  unfold header_post_runtime, source_file_contents, exists_, readable. cbn [i_source i_name c_embed translate_config]. rewrite D, R. cbn [andb option_map].
  eexists. split; [reflexivity|]. cbn [h_code]. apply C45_ascii_text_survives; [|exact T].
  eapply Forall_impl; [|exact F]. unfold plain. cbn. intros; lia.
Qed.
Print Assumptions C87_ordinary_file_is_embedded.

(** ** Without the option *)
Lemma escape_plain t : Forall (fun c => 32 <= c < 127 /\ c <> 34 /\ c <> 92) t -> escape t = t.
Proof.
  induction 1 as [|c r H _ IH]; [reflexivity|]. unfold escape in *. cbn [flat_map]. rewrite IH. unfold esc.
  repeat match goal with |- context [if c =? ?b then _ else _] => rewrite (proj2 (N.eqb_neq c b)) by lia end.
  rewrite (proj2 (N.leb_le 32 c)), (proj2 (N.ltb_lt c 127)) by lia. reflexivity.
Qed.
Lemma escape_app a b : escape (a ++ b) = escape a ++ escape b.
Proof. unfold escape. apply flat_map_app. Qed.
Lemma no_question t : Forall (fun c => c <> 63) t -> no_trigraph t.
Proof. intros F a x b ->. apply Forall_app in F as [_ F]. inversion_clear F as [|? ? H]. now contradiction H. Qed.

(** what an executable without the text says, as a text *)
Definition not_embedded (name path program : Text) : Text :=
  codes "Instrument " ++ name ++ codes " source code from " ++ path ++ codes " is not embedded in this executable." ++ [10] ++ codes "Use --source option when running " ++ program.

(** Without the option the file is neither read nor needed, and the executable says from where its instrument is
    (for a name of letters and digits and a path of printable characters without question mark). *)
Theorem C87_not_embedded {Body : Type} d n p b no_main :
  Forall word n -> Forall path_character p ->
  let i := mkInstr n (Some p) b in
  exists h, header_post_runtime (Body := Body) d i (translate_config false no_main) = Some h /\
  c_reads (h_code h) = Some (not_embedded n p (codes "None")) /\ c_reads (h_source h) = Some p /\ c_reads (h_name h) = Some n.
Proof.
  intros W P i. unfold header_post_runtime, source_file_contents, i. cbn [i_source i_name c_embed translate_config andb]. eexists. split; [reflexivity|].
  cbn [h_code h_source h_name]. unfold escape_option.
  assert (N1 : escape n = n) by (apply escape_plain; eapply Forall_impl; [|exact W]; unfold word; cbn; intros; lia).
  assert (Q : forall t, Forall (fun c => c = 9 \/ c = 10 \/ c = 13 \/ 32 <= c < 127) t -> Forall (fun c => c <> 63) t -> c_reads (literal t) = Some t)
    by (intros t A B; apply C45_ascii_text_survives; [exact A|now apply no_question]).
  assert (K : forall s, forallb (fun c => ((c =? 10) || ((32 <=? c) && (c <? 127))) && negb (c =? 63)) (codes s) = true ->
              Forall (fun c => c = 9 \/ c = 10 \/ c = 13 \/ 32 <= c < 127) (codes s) /\ Forall (fun c => c <> 63) (codes s)).
  { intros s H. rewrite forallb_forall in H. split; apply Forall_forall; intros c I; specialize (H c I); apply andb_prop in H as [H1 H2]; apply negb_true_iff, N.eqb_neq in H2;
      apply orb_prop in H1 as [H1|H1]; try (apply N.eqb_eq in H1; lia); apply andb_prop in H1 as [H1 H3]; apply N.leb_le in H1; apply N.ltb_lt in H3; lia. }
  assert (Wn : Forall (fun c => c = 9 \/ c = 10 \/ c = 13 \/ 32 <= c < 127) n /\ Forall (fun c => c <> 63) n) by (split; eapply Forall_impl; try exact W; unfold word; cbn; intros; lia).
  assert (Wp : Forall (fun c => c = 9 \/ c = 10 \/ c = 13 \/ 32 <= c < 127) p /\ Forall (fun c => c <> 63) p) by (split; eapply Forall_impl; try exact P; unfold path_character; cbn; intros; lia).
  split; [|split].
  - match goal with |- c_reads (34 :: ?l ++ [34]) = _ => assert (L : l = escape (not_embedded n p (codes "None"))) end.
    { unfold not_embedded. rewrite !escape_app. rewrite N1. unfold flavor_text. cbn [c_flavor].
      change (escape [10]) with [92; 110].
      rewrite (escape_plain (codes "Instrument ")), (escape_plain (codes " source code from ")), (escape_plain (codes " is not embedded in this executable.")), (escape_plain (codes "Use --source option when running ")), (escape_plain (codes "None"))
        by (repeat (constructor; [cbn; lia|]); constructor).
      repeat rewrite <- app_assoc. reflexivity. }
    rewrite L. apply (Q (not_embedded n p (codes "None"))); unfold not_embedded; repeat (apply Forall_app; split); try (apply Wn); try (apply Wp); try (apply K; reflexivity);
      (constructor; [cbn; lia|constructor]).
  - apply Q; [apply Wp|apply Wp].
  - rewrite <- N1 at 1. apply Q; [apply Wn|apply Wn].
Qed.
Print Assumptions C87_not_embedded.

(** Neither what the executable says nor whether it can be made depends on the files. *)
Theorem C87_not_asked_files_unused {Body : Type} d d' i c : c_embed c = false -> header_post_runtime (Body := Body) d i c = header_post_runtime d' i c /\ header_post_runtime d i c <> None.
Proof.
  intro E. unfold header_post_runtime, source_file_contents. rewrite E. cbn [andb]. destruct (i_source i); split; try reflexivity; discriminate.
Qed.
Print Assumptions C87_not_asked_files_unused.

(** A main function is defined exactly if --no-main is not given, and the variable of the executable agrees with it; run always defines it. *)
Theorem C87_main_as_asked {Body : Type} d i source no_main h :
  (header_post_runtime (Body := Body) d i (translate_config source no_main) = Some h -> (h_main h = true <-> no_main = false) /\ h_defaultmain h = (if h_main h then 1 else 0)) /\
  (header_post_runtime d i (run_config source) = Some h -> h_main h = true /\ h_defaultmain h = 1).
Proof.
  unfold header_post_runtime. split; intro H; destruct (source_file_contents _ _ _); try discriminate; injection H as <-; cbn [h_main h_defaultmain c_main translate_config run_config].
  - destruct no_main; cbn [negb]; repeat split; discriminate || reflexivity.
  - split; reflexivity.
Qed.
Print Assumptions C87_main_as_asked.

(** ** Where the text is not embedded although it was asked for *)

(** Of an instrument that was loaded with load_mcstas_instr no executable with its text can be made, whatever the file. *)
Theorem C87_loaded_instrument_refuted {Body : Type} (parse : Text -> option (Text * Body)) d d' p i c : load_mccode_instr parse d p = Some i -> c_embed c = true -> header_post_runtime d' i c = None.
Proof.
  unfold load_mccode_instr. destruct (read_text d p); [|discriminate]. destruct (parse _) as [[n b]|]; [|discriminate]. intros [= <-] E.
  unfold header_post_runtime, source_file_contents. cbn [i_source]. now rewrite E.
Qed.
Print Assumptions C87_loaded_instrument_refuted.

(** The file is read anew: whatever it holds by then is embedded, though the instrument was made from another text.
    If it can no longer be read, the executable tells to use the option that was used. *)
Theorem C87_changed_file_refuted {Body : Type} (parse : Text -> option (Text * Body)) d p i f : get_instrument parse d p = Some i -> Forall plain f -> no_trigraph f -> Forall word (i_name i) -> Forall path_character p ->
  (exists h, header_post_runtime (fun q => if list_eq_dec N.eq_dec q p then Holds f else d q) i (translate_config true false) = Some h /\ c_reads (h_code h) = Some f) /\
  (exists h, header_post_runtime (fun q => if list_eq_dec N.eq_dec q p then Locked else d q) i (translate_config true false) = Some h /\ c_reads (h_code h) = Some (not_embedded (i_name i) p (codes "None"))).
Proof.
  intros G F T W P. unfold get_instrument in G. destruct (read_text d p) as [t|]; [|discriminate]. destruct (parse t) as [[n b]|]; [|discriminate]. injection G as <-. cbn [i_name] in *. split.
  - assert (N : newlines f = f).
    { clear -F. induction F as [|c r H _ IH]; [reflexivity|]. unfold plain in H.
      destruct c as [|[[[[?|?|]|[?|?|]|]|[[?|?|]|[?|?|]|]|]|[[[?|?|]|[?|?|]|]|[[?|?|]|[?|?|]|]|]|]]; cbn [newlines]; try (now rewrite IH); lia. }
    unfold header_post_runtime, source_file_contents, exists_, readable, read_text. cbn [i_source i_name c_embed translate_config].
    destruct (list_eq_dec N.eq_dec p p) as [_|X]; [|now contradiction X]. cbn [andb option_map]. rewrite N. eexists. split; [reflexivity|]. cbn [h_code].
    apply C45_ascii_text_survives; [|exact T]. eapply Forall_impl; [|exact F]. unfold plain. cbn. intros; lia.
  - destruct (C87_not_embedded d n p b false W P) as (h & H1 & H2 & _). cbv zeta in H1.
    unfold header_post_runtime, source_file_contents, exists_, readable in *. cbn [i_source i_name c_embed translate_config andb] in *.
    destruct (list_eq_dec N.eq_dec p p) as [_|X]; [|now contradiction X]. cbn [andb]. injection H1 as <-. eexists. split; [reflexivity|]. exact H2.
Qed.
Print Assumptions C87_changed_file_refuted.

(** An instrument put together by a program has no file, yet a file of the name interactive is embedded as its text. *)
Theorem C87_assembled_instrument_refuted {Body : Type} d n b f : d (codes "interactive") = Holds f -> Forall plain f -> no_trigraph f ->
  exists h, header_post_runtime (Body := Body) d (assembled n b) (translate_config true false) = Some h /\ c_reads (h_code h) = Some f.
Proof.
  intros D F T.
  assert (N : newlines f = f).
  { clear -F. induction F as [|c r H _ IH]; [reflexivity|]. unfold plain in H.
    destruct c as [|[[[[?|?|]|[?|?|]|]|[[?|?|]|[?|?|]|]|]|[[[?|?|]|[?|?|]|]|[[?|?|]|[?|?|]|]|]|]]; cbn [newlines]; try (now rewrite IH); lia. }
  unfold header_post_runtime, source_file_contents, assembled, exists_, readable, read_text. cbn [i_source i_name c_embed translate_config]. rewrite D. cbn [andb option_map]. rewrite N.
  eexists. split; [reflexivity|]. cbn [h_code]. apply C45_ascii_text_survives; [|exact T]. eapply Forall_impl; [|exact F]. unfold plain. cbn. intros; lia.
Qed.
Print Assumptions C87_assembled_instrument_refuted.

(** A file with carriage returns is embedded without them, so the text is not the file; the text is still the one that was read. *)
Theorem C87_carriage_returns_refuted {Body : Type} (parse : Text -> option (Text * Body)) d p i f h : d p = Holds f -> In 13 f -> get_instrument parse d p = Some i -> header_post_runtime d i (translate_config true false) = Some h ->
  h_code h = literal (newlines f) /\ newlines f <> f.
Proof.
  intros D I G H. unfold get_instrument, read_text in G. rewrite D in G. destruct (parse (newlines f)) as [[n b]|]; [|discriminate]. injection G as <-.
  unfold header_post_runtime, source_file_contents, exists_, readable, read_text in H. cbn [i_source i_name c_embed translate_config] in H. rewrite D in H. cbn [andb option_map] in H. injection H as <-. split; [reflexivity|].
  intro E. pose proof (newlines_no_cr f) as C. rewrite E, Forall_forall in C. exact (C 13 I eq_refl).
Qed.
Print Assumptions C87_carriage_returns_refuted.

(** An instrument file of three lines, one with text in quotes, is embedded; an instrument made from the same file with load_mcstas_instr cannot be translated with --source. *)
Definition sample : Text := codes "DEFINE INSTRUMENT a(string s=""b\n"")" ++ [10] ++ codes "TRACE" ++ [10] ++ codes "END" ++ [10].
Definition sample_disk : disk := fun p => if list_eq_dec N.eq_dec p (codes "/x/a.instr") then Holds sample else Absent.
Definition sample_parse (t : Text) : option (Text * nat) := Some (codes "a", List.length t).
Example C87_sample : Forall plain sample /\ no_trigraph sample /\ Forall word (codes "a") /\ Forall path_character (codes "/x/a.instr") /\
  (exists i, get_instrument sample_parse sample_disk (codes "/x/a.instr") = Some i /\
    option_map (fun h => c_reads (h_code h)) (header_post_runtime sample_disk i (translate_config true false)) = Some (Some sample) /\
    option_map (fun h => c_reads (h_code h)) (header_post_runtime sample_disk i (run_config false))
      = Some (Some (codes "Instrument a source code from /x/a.instr is not embedded in this executable." ++ [10] ++ codes "Use --source option when running None"))) /\
  (exists i, load_mccode_instr sample_parse sample_disk (codes "/x/a.instr") = Some i /\ header_post_runtime sample_disk i (run_config true) = None).
Proof.
  split; [|split; [|split; [|split; [|split]]]].
  - apply Forall_forall. intros c I. unfold plain. assert (H : forallb (fun c => (c =? 10) || ((32 <=? c) && (c <? 127))) sample = true) by reflexivity. rewrite forallb_forall in H. specialize (H c I).
    apply orb_prop in H as [H|H]; [apply N.eqb_eq in H; lia|]. apply andb_prop in H as [H1 H2]. apply N.leb_le in H1. apply N.ltb_lt in H2. lia.
  - apply no_question. apply Forall_forall. intros c I ->. assert (H : forallb (fun c => negb (c =? 63)) sample = true) by reflexivity. rewrite forallb_forall in H. specialize (H 63 I). discriminate.
  - constructor; [unfold word; cbn; lia|constructor].
  - repeat (constructor; [unfold path_character; cbn; lia|]). constructor.
  - eexists. split; [reflexivity|]. split; vm_compute; reflexivity.
  - eexists. split; reflexivity.
Qed.
Example C87_carriage_return : newlines [97; 13; 10; 98; 13; 13; 10; 99; 13] = [97; 10; 98; 10; 10; 99; 10].
Proof. reflexivity. Qed.
