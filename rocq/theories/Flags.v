(** Expansion of ENV(...), GETPATH(...) and CMD(...) in dependency strings:
    _replace_env_getpath_cmd, instr/instr.py:226-266. *)
From Coq Require Import List String Ascii Bool Arith Lia.
From Verif Require Import PyStr.
Import ListNotations.
Local Open Scope string_scope.

(** how a call ends; OutOfFuel stands for unbounded recursion *)
Inductive outcome := Done (s : string) | ValueError | IndexError | WorkerError | OutOfFuel.

(** a text without its first characters *)
Fixpoint drop (n : nat) (s : string) : string :=
  match n, s with
  | O, _ => s
  | S n', String _ t => drop n' t
  | S _, EmptyString => ""
  end.
(** sub in s, and s.split(sub, 1) when it is *)
Fixpoint cut (sub s : string) : option (string * string) :=
  if startswith sub s then Some ("", drop (String.length sub) s)
  else match s with
       | EmptyString => None
       | String c t => match cut sub t with Some (b, a) => Some (String c b, a) | None => None end
       end.

Section Replace.
  Variable start : string.
  (** the worker: os.environ.get, the registry look up, or a subprocess, which may raise *)
  Variable worker : string -> option string.
  (** replace, instr.py:250-262 *)
  Fixpoint replace_fuel (fuel : nat) (chars : string) : outcome :=
    match fuel with
    | O => OutOfFuel
    | S fuel =>
        match cut start chars with
        | None => Done chars
        | Some (before, after) =>
            match after with
            | EmptyString => IndexError                             (* after[0] *)
            | String c rest =>
                if negb (Ascii.eqb c "(") then ValueError
                else match split_once ")" rest with
                     | None => ValueError
                     | Some (dep, after') =>
                         if contains start dep then ValueError
                         else match worker dep with
                              | None => WorkerError
                              | Some v =>
                                  match replace_fuel fuel after' with
                                  | Done t => Done (before ++ v ++ t)
                                  | e => e
                                  end
                              end
                     end
            end
        end
    end.
  (** _replace_env_getpath_cmd, instr.py:226-266 *)
  Definition replace (chars : string) : outcome := replace_fuel (S (String.length chars)) chars.
End Replace.

(** the three passes, instr.py:263-266 *)
Definition expand (env getpath cmd : string -> option string) (flags : string) : outcome :=
  match replace "ENV" env flags with
  | Done f1 => match replace "GETPATH" getpath f1 with
               | Done f2 => replace "CMD" cmd f2
               | e => e
               end
  | e => e
  end.

Lemma drop_app p r : drop (String.length p) (p ++ r) = r.
Proof. induction p; cbn; auto. Qed.
Lemma cut_some sub s b a : cut sub s = Some (b, a) -> s = b ++ sub ++ a.
Proof.
  revert b. induction s as [|c t IH]; intros b; cbn [cut].
  - destruct (startswith sub "") eqn:E; [|discriminate]. apply startswith_spec in E as [r E].
    intros [= <- <-]. destruct sub; [now destruct r|discriminate].
  - destruct (startswith sub (String c t)) eqn:E.
    + apply startswith_spec in E as [r E]. rewrite E, drop_app. intros [= <- <-]. reflexivity.
    + destruct (cut sub t) as [[b' a']|]; [|discriminate]. intros [= <- <-]. cbn. f_equal. auto.
Qed.
Lemma cut_none sub s : cut sub s = None <-> contains sub s = false.
Proof.
  induction s as [|c t IH]; cbn [cut contains].
  - destruct (startswith sub ""); split; discriminate || auto.
  - destruct (startswith sub (String c t)); [split; discriminate|]. cbn [orb]. rewrite <- IH.
    destruct (cut sub t) as [[b a]|]; split; discriminate || auto.
Qed.
(** the text before the first occurrence does not contain the key *)
Lemma cut_before sub s b a : sub <> "" -> cut sub s = Some (b, a) -> contains sub b = false.
Proof.
  intro Hs. revert b. induction s as [|c t IH]; intros b; cbn [cut].
  - destruct (startswith sub "") eqn:E; [|discriminate]. intros [= <- _]. destruct sub; [congruence|reflexivity].
  - destruct (startswith sub (String c t)) eqn:E.
    + intros [= <- _]. destruct sub; [congruence|reflexivity].
    + destruct (cut sub t) as [[b' a']|] eqn:C; [|discriminate]. intros [= <- <-]. cbn [contains].
      rewrite (IH b' eq_refl), orb_false_r.
      destruct (startswith sub (String c b')) eqn:E2; auto. apply startswith_spec in E2 as [r E2].
      apply cut_some in C. rewrite C in E.
      assert (startswith sub (String c (b' ++ sub ++ a')) = true); [|congruence].
      apply startswith_spec. exists (r ++ sub ++ a'). change (String c (b' ++ sub ++ a')) with (String c b' ++ (sub ++ a')).
      rewrite E2. now rewrite string_app_assoc.
Qed.
(** for a key whose first character does not come again in it, the first occurrence in
    text ++ key ++ rest is the intended one *)
Lemma prefix_straddle c k : has_char c k = false -> forall b r, startswith k (b ++ String c r) = true -> startswith k b = true.
Proof.
  induction k as [|y k IH]; intros H b r E; [reflexivity|]. cbn in H. apply orb_false_iff in H as [Hy Hk].
  destruct b as [|x b]; cbn in E.
  - apply andb_prop in E as [E _]. congruence.
  - cbn. apply andb_prop in E as [-> E]. cbn. eapply IH; eauto.
Qed.
Lemma cut_first c k b r : has_char c k = false -> contains (String c k) b = false ->
  cut (String c k) (b ++ String c k ++ r) = Some (b, r).
Proof.
  intros H. induction b as [|x b IH]; intro N.
  - cbn [append]. assert (E : startswith (String c k) (String c (k ++ r)) = true).
    { apply startswith_spec. exists r. reflexivity. }
    unfold cut. rewrite E. change (String c (k ++ r)) with (String c k ++ r). now rewrite drop_app.
  - cbn [append cut]. cbn [contains] in N. apply orb_false_iff in N as [N1 N2].
    destruct (startswith (String c k) (String x (b ++ String c (k ++ r)))) eqn:E.
    + exfalso. cbn in E, N1. apply andb_prop in E as [E1 E2]. rewrite E1 in N1. cbn in N1.
      apply (prefix_straddle c k H) in E2. congruence.
    + change (b ++ String c (k ++ r)) with (b ++ String c k ++ r). rewrite (IH N2). reflexivity.
Qed.
