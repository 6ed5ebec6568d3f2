(** Monitor files and their combination, loader/datfile.py.

    Numbers of the data block are exact (the code: numpy doubles); a file is modelled from
    its parsed header and its block of numbers on; the splitting of the text into lines and
    of lines into numbers is modelled in DatText.v.  None stands for a raised exception. *)
From Coq Require Import List String Ascii Bool Arith ZArith QArith Qcanon Lia DecimalString.
From Verif Require Import PyStr.
Import ListNotations.
Local Open Scope string_scope.
Local Open Scope list_scope.
Local Open Scope nat_scope.

(** the values of metadata and parameters: text as read, integers after combining *)
Inductive mval := VS (s : string) | VI (z : Z).
(** the operator == of Python on such values *)
Definition mval_eqb (a b : mval) : bool :=
  match a, b with VS s, VS t => s =?s t | VI x, VI y => (x =? y)%Z | _, _ => false end.
Lemma mval_eqb_eq a b : mval_eqb a b = true <-> a = b.
Proof.
  destruct a, b; cbn; rewrite ?String.eqb_eq, ?Z.eqb_eq; split; intro H; try discriminate; try congruence.
Qed.
(** int(x) for decimal text *)
Definition py_int (s : string) : option Z :=
  match NilZero.int_of_string (strip s) with Some d => Some (Z.of_int d) | None => None end.
(** int(x) *)
Definition int_of (v : mval) : option Z := match v with VS s => py_int s | VI z => Some z end.
(** str of an integer *)
Definition str_Z (z : Z) : string := NilZero.string_of_int (Z.to_int z).
(** str(x) *)
Definition str_of (v : mval) : string := match v with VS s => s | VI z => str_Z z end.

(** a Python dict, in its order *)
Definition dict := list (string * mval).
(** d[k], None: KeyError *)
Fixpoint get (d : dict) (k : string) : option mval :=
  match d with [] => None | (a, v) :: t => if a =?s k then Some v else get t k end.
(** d[k] = v *)
Fixpoint set (d : dict) (k : string) (v : mval) : dict :=
  match d with [] => [(k, v)] | (a, w) :: t => if a =?s k then (a, v) :: t else (a, w) :: set t k v end.

(** any(s in k for s in ...), combine_scan_dicts, datfile.py:251-260 *)
Definition special_add (k : string) : bool := contains "Ncount" k.
(** datfile.py:255, 260 *)
Definition special_concatenate (k : string) : bool :=
  contains "Directory" k || contains "filename" k || contains "Date" k || contains "Seed" k.
(** datfile.py:256, 263 *)
Definition special_ignore (k : string) : bool :=
  contains "signal" k || contains "statistics" k || contains "values" k.
(** v not in c[k]: both must be text *)
Definition not_in (v c : mval) : option bool :=
  match v, c with VS v, VS c => Some (negb (contains v c)) | _, _ => None end.
(** the loop body, datfile.py:257-269 *)
Definition combine_key (c : dict) (kv : string * mval) : option dict :=
  let '(k, v) := kv in
  if special_add k then
    match get c k with
    | Some w => match int_of w, int_of v with Some x, Some y => Some (set c k (VI (x + y))) | _, _ => None end
    | None => None
    end
  else if special_concatenate k then
    match get c k with
    | Some w => match not_in v w with
                | Some true => Some (set c k (VS ((str_of w ++ " " ++ str_of v)%string)))
                | Some false => Some c
                | None => None
                end
    | None => None
    end
  else if special_ignore k then Some c
  else match get c k with
       | Some w => if mval_eqb w v then Some c else None
       | None => None
       end.
(** the loop of datfile.py:257-269 *)
Fixpoint combine_keys (c b : dict) : option dict :=
  match b with
  | [] => Some c
  | kv :: t => match combine_key c kv with Some c' => combine_keys c' t | None => None end
  end.
(** datfile.py:251-270 *)
Definition combine_scan_dicts (a b : dict) : option dict := combine_keys a b.

(** the operator == of Python on lists of texts *)
Fixpoint lists_eqb (a b : list string) : bool :=
  match a, b with [], [] => true | x :: s, y :: t => (x =?s y) && lists_eqb s t | _, _ => false end.
Lemma lists_eqb_eq a b : lists_eqb a b = true <-> a = b.
Proof.
  revert b. induction a as [|x s IH]; intros [|y t]; cbn; split; intro H; try discriminate; auto.
  - apply andb_prop in H as [H1 H2]. apply String.eqb_eq in H1. apply IH in H2. congruence.
  - inversion H; subst. rewrite String.eqb_refl. now apply IH.
Qed.
(** combine_scan_lists, 273-276 *)
Definition combine_scan_lists (a b : list string) : option (list string) := if lists_eqb a b then Some a else None.

(** an array: its shape and its entries in C order *)
Record arr := mkArr { shape : list nat; flat : list Qc }.
(** the operator == of Python on shapes *)
Fixpoint nats_eqb (a b : list nat) : bool :=
  match a, b with [], [] => true | x :: s, y :: t => (x =? y) && nats_eqb s t | _, _ => false end.
Lemma nats_eqb_eq a b : nats_eqb a b = true <-> a = b.
Proof.
  revert b. induction a as [|x s IH]; intros [|y t]; cbn; split; intro H; try discriminate; auto.
  - apply andb_prop in H as [H1 H2]. apply Nat.eqb_eq in H1. apply IH in H2. congruence.
  - inversion H; subst. rewrite Nat.eqb_refl. now apply IH.
Qed.
(** numpy: the number of entries of an array *)
Definition size (a : arr) : nat := fold_right Nat.mul 1 (shape a).
(** specification: as many entries as the shape says *)
Definition well_shaped (a : arr) : Prop := List.length (flat a) = size a.
(** numpy: addition of arrays of the same shape *)
Definition add_all (x y : list Qc) : list Qc := map (fun p => Qcplus (fst p) (snd p)) (List.combine x y).
(** combine_scan_data, 279-292: rows [-3:] of a 2-d array, all of a 3-d array *)
Definition combine_scan_data (a b : arr) : option arr :=
  if nats_eqb (shape a) (shape b) then
    match shape a with
    | [nv; n] => let k := (nv - 3) * n in
                 Some (mkArr (shape a) (firstn k (flat a) ++ add_all (skipn k (flat a)) (skipn k (flat b))))
    | [_; _; _] => Some (mkArr (shape a) (add_all (flat a) (flat b)))
    | _ => None
    end
  else None.

(** the classes DatFile0D, DatFile1D, DatFile2D, datfile.py:99-233 *)
Inductive kind := D0 | D1 | D2.
(** DatFileCommon, datfile.py:10-30 *)
Record dat := mkDat { dkind : kind; metadata : dict; parameters : dict; variables : list string; data : arr }.
(** self.metadata[k] == other.metadata[k], datfile.py:124-229 *)
Definition meta_eq (k : string) (a b : dat) : option bool :=
  match get (metadata a) k, get (metadata b) k with Some v, Some w => Some (mval_eqb v w) | _, _ => None end.
(** safe_to_combine, 124-131, 167-178, 216-229; the test of DatFile0D is for DatFile1D *)
Definition safe_to_combine (a b : dat) : option bool :=
  match dkind a, dkind b with
  | D0, D1 => Some (lists_eqb (variables a) (variables b) && nats_eqb (shape (data a)) (shape (data b)))
  | D1, D1 =>
      if negb (lists_eqb (variables a) (variables b)) then Some false else
      match meta_eq "xlabel" a b with
      | Some true => match meta_eq "xlimits" a b with
                     | Some true => Some (nats_eqb (shape (data a)) (shape (data b)))
                     | r => r
                     end
      | r => r
      end
  | D2, D2 =>
      if negb (lists_eqb (variables a) (variables b)) then Some false else
      match meta_eq "xlabel" a b with
      | Some true => match meta_eq "ylabel" a b with
                     | Some true => match meta_eq "xylimits" a b with
                                    | Some true => Some (nats_eqb (shape (data a)) (shape (data b)))
                                    | r => r
                                    end
                     | r => r
                     end
      | r => r
      end
  | _, _ => Some false
  end.

(** the number in the brackets of the type, 141, 188 *)
Definition after_paren (s : string) : option string := match split_once "(" s with Some (_, r) => Some r | None => None end.
(** the character that datfile.py:141 and 188 strip *)
Definition is_close (a : ascii) : bool := Ascii.eqb a ")".
(** str.strip at the front, datfile.py:141, 188 *)
Fixpoint lstrip_close (s : string) : string := match s with EmptyString => "" | String a t => if is_close a then lstrip_close t else s end.
(** str.strip at the end, datfile.py:141, 188 *)
Fixpoint rstrip_close (s : string) : string :=
  match s with
  | EmptyString => ""
  | String a t => match rstrip_close t with EmptyString => if is_close a then "" else String a "" | r => String a r end
  end.
(** str.strip of a closing bracket, datfile.py:141, 188 *)
Definition strip_close (s : string) : string := rstrip_close (lstrip_close s).
(** the text of metadata["type"] after the bracket, datfile.py:141, 188 *)
Definition type_text (m : dict) : option string := match get m "type" with Some (VS s) => after_paren s | _ => None end.
(** datfile.py:141 *)
Definition nx_of (m : dict) : option Z := match type_text m with Some s => py_int (strip_close s) | None => None end.
(** datfile.py:188 *)
Definition nxy_of (m : dict) : option (Z * Z) :=
  match type_text m with
  | Some s => match split_char "," (strip_close s) with
              | [x; y] => match py_int x, py_int y with Some x, Some y => Some (x, y) | _, _ => None end
              | _ => None
              end
  | None => None
  end.
(** the transpose of a 2-d array with r rows and c columns *)
Definition column (c j : nat) (l : list Qc) (r : nat) : list Qc := map (fun i => nth (i * c + j) l 0%Qc) (seq 0 r).
(** numpy: the transpose as used by datfile.py:101-108, 140-149 *)
Definition transpose (r c : nat) (l : list Qc) : list Qc := flat_map (fun j => column c j l r) (seq 0 c).
(** comparison of a shape with numbers of the header, datfile.py:140-195 *)
Definition zshape_is (a : arr) (l : list Z) : bool :=
  (List.length (shape a) =? List.length l) && forallb (fun p => (Z.of_nat (fst p) =? snd p)%Z) (List.combine (shape a) l).
(** __post_init__, 101-108, 140-149, 187-195 *)
Definition post_init (d : dat) : option dat :=
  let nv := List.length (variables d) in
  let a := data d in
  match dkind d with
  | D0 => if nats_eqb (shape a) [nv] then Some d
          else if size a =? nv then Some (mkDat D0 (metadata d) (parameters d) (variables d) (mkArr [nv] (flat a))) else None
  | D1 =>
      match nx_of (metadata d) with
      | Some nx =>
          if zshape_is a [Z.of_nat nv; nx] then Some d
          else match shape a with
               | [r; c] => if (Z.of_nat r =? nx)%Z && (c =? nv)
                           then Some (mkDat D1 (metadata d) (parameters d) (variables d) (mkArr [c; r] (transpose r c (flat a))))
                           else None
               | _ => None
               end
      | None => None
      end
  | D2 =>
      match nxy_of (metadata d) with
      | Some (nx, ny) =>
          if zshape_is a [Z.of_nat nv; ny; nx] then Some d
          else match shape a with
               | [r; c] => if (Z.of_nat r =? ny * Z.of_nat nv)%Z && (Z.of_nat c =? nx)%Z
                           then Some (mkDat D2 (metadata d) (parameters d) (variables d) (mkArr [nv; Z.to_nat ny; c] (flat a)))
                           else None
               | _ => None
               end
      | None => None
      end
  end.
(** DatFileCommon.__add__ and its overrides, 78-85, 133-135, 180-182, 231-233 *)
Definition kind_after (k : kind) : kind := match k with D0 => D1 | k => k end.
(** datfile.py:78-85, 133-135, 180-182, 231-233 *)
Definition dat_add (a b : dat) : option dat :=
  match safe_to_combine a b with
  | Some true =>
      match combine_scan_dicts (metadata a) (metadata b), combine_scan_dicts (parameters a) (parameters b),
            combine_scan_lists (variables a) (variables b), combine_scan_data (data a) (data b) with
      | Some m, Some p, Some v, Some x => post_init (mkDat (kind_after (dkind a)) m p v x)
      | _, _, _, _ => None
      end
  | _ => None
  end.
(** combine_mccode_dats, 295-299; IndexError for an empty list *)
Fixpoint add_from (one : dat) (l : list dat) : option dat :=
  match l with [] => Some one | d :: t => match dat_add one d with Some r => add_from r t | None => None end end.
(** datfile.py:295-299 *)
Definition combine_mccode_dats (l : list dat) : option dat := match l with [] => None | d :: t => add_from d t end.
(** read_mccode_dat, 236-248, from the parsed header and the rows of numbers *)
Definition read_mccode_dat (m p : dict) (rows : arr) : option dat :=
  match get m "type" with
  | Some (VS t) =>
      let v := split_char " " (match get m "variables" with Some w => str_of w | None => "" end) in
      if startswith "array_0d" t then post_init (mkDat D0 m p v rows)
      else if startswith "array_1d" t then post_init (mkDat D1 m p v rows)
      else if startswith "array_2d" t then post_init (mkDat D2 m p v rows)
      else None
  | _ => None
  end.
