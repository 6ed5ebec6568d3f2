(** Registries of component files and the lookup of a file among them.
    src/mccode_antlr/reader/registry.py and src/mccode_antlr/reader/reader.py *)
From Coq Require Import List String Ascii Bool Arith ZArith Lia Permutation Sorted.
From Verif Require Import PyStr TextLines.
Import ListNotations.
Local Open Scope string_scope.
Local Open Scope list_scope.
Local Open Scope nat_scope.

(** * pathlib.PurePosixPath, the part used in registry.py
    Paths are split at slashes, empty and "." parts are dropped.  Not modelled: a path that starts with exactly two slashes. *)
Definition parts (s : string) : list string :=
  filter (fun x => negb (x =?s "") && negb (x =?s ".")) (split_char "/" s).
(** PurePath.is_absolute *)
Definition absolute (s : string) : bool := startswith "/" s.
(** PurePath.as_posix *)
Definition posix (ab : bool) (ps : list string) : string :=
  match ps with [] => if ab then "/" else "." | _ => (if ab then "/" else "") +++ join "/" ps end.
(** PurePath.name: the last part, "" for an empty path *)
Definition base (s : string) : string := List.last (parts s) "".

(** str.rfind of a dot, as the text before and after it *)
Fixpoint cut_dot (s : string) : option (string * string) :=
  match s with
  | EmptyString => None
  | String a t => match cut_dot t with
                  | Some (b, e) => Some (String a b, e)
                  | None => if Ascii.eqb a "." then Some ("", t) else None
                  end
  end.
(** PurePath.suffix and PurePath.stem of a name (Python < 3.14): the text from the last dot, if neither side of it is empty *)
Definition suffix_of (nm : string) : string :=
  match cut_dot nm with Some (b, e) => if (b =?s "") || (e =?s "") then "" else "." +++ e | None => "" end.
(** PurePath.stem *)
Definition stem_of (nm : string) : string :=
  match cut_dot nm with Some (b, e) => if (b =?s "") || (e =?s "") then nm else b | None => nm end.

(** Path(s).with_suffix(suf).as_posix(); None: ValueError *)
Definition with_suffix (s suf : string) : option string :=
  if negb (suf =?s "") && (negb (startswith "." suf) || (suf =?s ".")) then None
  else match parts s with
       | [] => None
       | ps => Some (posix (absolute s) (removelast ps ++ [stem_of (List.last ps "") +++ suf]))
       end.
(** registry.py 92-96 _name_plus_suffix *)
Definition name_plus_suffix (name : string) (ext : option string) : option string :=
  match ext with
  | Some e => if suffix_of (base name) =?s e then Some (posix (absolute name) (parts name))
              else with_suffix name (suffix_of (base name) +++ e)
  | None => Some (posix (absolute name) (parts name))
  end.
(** Path(x).with_suffix('').as_posix() for a listed file x; listed files have at least one part *)
Definition bare (x : string) : string := match with_suffix x "" with Some y => y | None => x end.

(** * RemoteRegistry: [files] is self.pooch.registry_files *)
(** registry.py 137-146 *)
Definition remote_known (files : list string) (name : string) (ext : option string) (strict : bool) : option bool :=
  match name_plus_suffix name ext with
  | None => None
  | Some cmp =>
    Some (if existsb (endswith cmp) files then true
          else if existsb (fun x => endswith cmp (bare x)) files then true
          else if strict then false else existsb (contains name) files)
  end.
(** registry.py 151-175 *)
Definition remote_fullname (files : list string) (name : string) (ext : option string) (exact : bool) : option string :=
  match name_plus_suffix name ext with
  | None => None
  | Some cmp =>
    match find (fun f => f =?s cmp) files with Some f => Some f | None =>
    match find (fun f => base f =?s cmp) files with Some f => Some f | None =>
    match (if exact then None else
             match find (fun f => bare f =?s cmp) files with Some f => Some f | None => find (fun f => base (bare f) =?s cmp) files end)
    with Some f => Some f | None =>
    match filter (contains name) files with [f] => Some f | _ => None end end end end
  end.

(** * LocalRegistry: [entries] are the files and directories below root, as lists of parts
    Path.glob is modelled for names without the pattern characters * ? [ and without ".." *)
Definition tail_match (ps e : list string) : bool :=
  if list_eq_dec String.string_dec (skipn (List.length e - List.length ps) e) ps then true else false.
(** the patterns that Path.glob accepts, registry.py:296-300 *)
Definition globbable (name : string) : bool := negb (absolute name) && match parts name with [] => false | _ => true end.
(** registry.py 299-300 _exact_file_iterator; None: glob raises on an empty or absolute pattern *)
Definition glob_root (entries : list (list string)) (name : string) : option (list (list string)) :=
  if globbable name then Some (filter (fun e => if list_eq_dec String.string_dec e (parts name) then true else false) entries) else None.
(** registry.py 296-297 _file_iterator *)
Definition glob_all (entries : list (list string)) (name : string) : option (list (list string)) :=
  if globbable name then Some (filter (tail_match (parts name)) entries) else None.
(** registry.py 302-304 *)
Definition local_known (entries : list (list string)) (name : string) (ext : option string) : option bool :=
  match name_plus_suffix name ext with
  | None => None
  | Some cmp => match glob_all entries cmp with Some l => Some (Nat.ltb 0 (List.length l)) | None => None end
  end.
(** registry.py 309-334 *)
Definition local_fullname (entries : list (list string)) (name : string) (ext : option string) (exact : bool) : option (list string) :=
  match name_plus_suffix name ext with
  | None => None
  | Some cmp =>
    match glob_root entries cmp, glob_root entries name, glob_all entries cmp, glob_all entries name with
    | Some [f], _, _, _ => Some f
    | Some _, Some [f], _, _ => Some f
    | Some _, Some _, Some lc, Some ln =>
        match (if exact then [] else lc), ln with [f], _ => Some f | _, [f] => Some f | _, _ => None end
    | _, _, _, _ => None
    end
  end.

(** * InMemoryRegistry: self.components as an insertion ordered dictionary *)
Definition store := list (string * string).
(** d[k] = v *)
Fixpoint put (d : store) (k v : string) : store :=
  match d with [] => [(k, v)] | (k', v') :: r => if k' =?s k then (k, v) :: r else (k', v') :: put r k v end.
(** d[k] *)
Definition get (d : store) (k : string) : option string := option_map snd (find (fun kv => fst kv =?s k) d).
(** registry.py 356-361 __init__, the renaming of the keys; 366-369 add_comp *)
Definition comp_key (k : string) : string := if endswith ".comp" (lower k) then k else k +++ ".comp".
(** registry.py:366-369 *)
Definition add_comp (d : store) (k v : string) : store := put d (comp_key k) v.
(** registry.py 356-361 *)
Definition new_memory (kw : list (string * string)) : store := fold_left (fun d kv => put d (comp_key (fst kv)) (snd kv)) kw [].
(** registry.py 379-381 *)
Definition memory_fullname (d : store) (name : string) (ext : option string) : option string :=
  let full := match ext with None => name | Some e => name +++ e end in
  match get d full with Some _ => Some full | None => None end.
(** registry.py 383-387 *)
Definition memory_known (d : store) (name : string) (ext : option string) : bool :=
  match memory_fullname d name ext with Some _ => true | None => false end.
(** registry.py 389-393; None: KeyError *)
Definition memory_contents (d : store) (name : string) (ext : option string) : option string :=
  match memory_fullname d name ext with Some f => get d f | None => None end.

(** * A registry of any kind.  File contents are part of the model so that one can say which file was served:
    for a remote registry the text pooch.fetch obtains for a listed file, for a local one None stands for a directory. *)
Inductive kind :=
| Remote (files : list (string * string))
| Local (entries : list (list string * option string))
| Memory (d : store).
(** registry.py:39-44 *)
Record registry := mkReg { r_name : string; r_prio : Z; r_kind : kind }.

(** registry.py:137-146, 302-304, 383-387 *)
Definition r_known (r : registry) (name : string) (ext : option string) (strict : bool) : option bool :=
  match r_kind r with
  | Remote fs => remote_known (map fst fs) name ext strict
  | Local es => local_known (map fst es) name ext
  | Memory d => Some (memory_known d name ext)
  end.
(** the default of [exact]: True for remote registries (151), False for local ones (307).
    Result: None raises, Some None is Python's None (InMemoryRegistry 379-381) *)
Definition r_fullname (r : registry) (name : string) (ext : option string) : option (option string) :=
  match r_kind r with
  | Remote fs => option_map Some (remote_fullname (map fst fs) name ext true)
  | Local es => option_map (fun e => Some (join "/" e)) (local_fullname (map fst es) name ext false)
  | Memory d => Some (memory_fullname d name ext)
  end.
(** registry.py 180-181, 339-340 path; 87-89 contents of the path; InMemoryRegistry.contents *)
Definition r_contents (r : registry) (name : string) (ext : option string) : option string :=
  match r_kind r with
  | Remote fs => match remote_fullname (map fst fs) name ext true with Some f => get fs f | None => None end
  | Local es => match local_fullname (map fst es) name ext false with
                | Some f => match find (fun e => if list_eq_dec String.string_dec (fst e) f then true else false) es with
                            | Some (_, c) => c | None => None end
                | None => None end
  | Memory d => memory_contents d name ext
  end.
(** Registry.path: the file a component is said to come from; InMemoryRegistry inherits a method without result (registry.py 71-72),
    so the result is Python's None: [Some None] *)
Definition r_path (r : registry) (name : string) (ext : option string) : option (option string) :=
  match r_kind r with Memory _ => Some None | _ => r_fullname r name ext end.

(** * registry.py 396-398 ordered_registries: sorted(key=priority, reverse=True), which is stable *)
Fixpoint insert (r : registry) (l : list registry) : list registry :=
  match l with
  | [] => [r]
  | x :: t => if (r_prio x <=? r_prio r)%Z then r :: l else x :: insert r t
  end.
(** ordered_registries, registry.py:396-398 *)
Fixpoint ordered (l : list registry) : list registry :=
  match l with [] => [] | r :: t => insert r (ordered t) end.

(** * The reader *)
(** reader.py 45-49 __post_init__ (with at least one registry), 51-52 prepend_registry, 54-55 append_registry *)
Definition new_reader (regs : list registry) : list registry := ordered regs.
(** reader/reader.py:51-52 *)
Definition prepend_registry (regs : list registry) (r : registry) := r :: regs.
(** reader/reader.py:54-55 *)
Definition append_registry (regs : list registry) (r : registry) := regs ++ [r].
(** reader.py 69, 78-79, 89: [x for x in self.registries if x.name in which] with a text [which] *)
Definition selected (regs : list registry) (which : option string) : list registry :=
  match which with None => regs | Some w => filter (fun r => contains (r_name r) w) regs end.
(** the loop of locate (71-73), contents (81-83) and fullname (92-94): None: known raises; Some None: nothing knows the name *)
Fixpoint first_known (regs : list registry) (name : string) (ext : option string) (strict : bool) : option (option registry) :=
  match regs with
  | [] => Some None
  | r :: t => match r_known r name ext strict with
              | None => None
              | Some true => Some (Some r)
              | Some false => first_known t name ext strict
              end
  end.
(** reader/reader.py:68-95 *)
Definition reader_get {A} (f : registry -> string -> option string -> option A) regs which name ext strict : option A :=
  match first_known (selected regs which) name ext strict with Some (Some r) => f r name ext | _ => None end.
(** reader/reader.py:77-86 *)
Definition reader_contents := reader_get r_contents.
(** reader/reader.py:88-95 *)
Definition reader_fullname := reader_get r_fullname.
(** reader/reader.py:68-75 *)
Definition reader_locate := reader_get r_path.

(** * Facts *)
Lemma insert_perm r l : Permutation (insert r l) (r :: l).
Proof. induction l as [|x t IH]; cbn; [auto|]. destruct (_ <=? _)%Z; [auto|]. rewrite IH. apply perm_swap. Qed.
Lemma ordered_perm l : Permutation (ordered l) l.
Proof. induction l as [|r t IH]; cbn; [auto|]. rewrite insert_perm. now rewrite IH. Qed.

(** specification: at least the same priority *)
Definition above (a b : registry) : Prop := (r_prio b <= r_prio a)%Z.
Lemma insert_sorted r l : StronglySorted above l -> StronglySorted above (insert r l).
Proof.
  induction 1 as [|x t Ht IH Hx]; cbn; [repeat constructor|].
  destruct (Z.leb_spec (r_prio x) (r_prio r)).
  - constructor; [now constructor|]. constructor; [exact H|]. revert Hx. apply Forall_impl. unfold above. intros; lia.
  - constructor; [exact IH|].
    apply (Permutation_Forall (Permutation_sym (insert_perm r t))). constructor; [unfold above; lia|exact Hx].
Qed.
Lemma ordered_sorted l : StronglySorted above (ordered l).
Proof. induction l; cbn; [constructor|]. now apply insert_sorted. Qed.
Lemma insert_filter p r l : filter (fun x => (r_prio x =? p)%Z) (insert r l)
   = filter (fun x => (r_prio x =? p)%Z) (r :: l).
Proof.
  induction l as [|x t IH]; [reflexivity|]. cbn [insert].
  destruct (Z.leb_spec (r_prio x) (r_prio r)); [reflexivity|].
  cbn [filter] in *. rewrite IH. destruct (Z.eqb_spec (r_prio x) p), (Z.eqb_spec (r_prio r) p); try reflexivity. lia.
Qed.
Lemma ordered_filter p l : filter (fun x => (r_prio x =? p)%Z) (ordered l) = filter (fun x => (r_prio x =? p)%Z) l.
Proof. induction l as [|r t IH]; [reflexivity|]. cbn [ordered]. rewrite insert_filter. cbn [filter]. now rewrite IH. Qed.

Lemma first_known_app a b name ext strict : (forall x, In x a -> r_known x name ext strict = Some false) ->
  first_known (a ++ b) name ext strict = first_known b name ext strict.
Proof. induction a as [|x a IH]; cbn; [auto|]. intro H. rewrite (H x) by auto. apply IH. auto. Qed.
Lemma first_known_split l name ext strict r : first_known l name ext strict = Some (Some r) <->
  exists a b, l = a ++ r :: b /\ r_known r name ext strict = Some true /\ (forall x, In x a -> r_known x name ext strict = Some false).
Proof.
  split.
  - induction l as [|x l IH]; cbn; [discriminate|]. destruct (r_known x name ext strict) as [[|]|] eqn:E; try discriminate.
    + intros [= ->]. exists [], l. repeat split; [exact E|]. intros ? [].
    + intro H. destruct (IH H) as (a & b & -> & K & N). exists (x :: a), b. repeat split; [exact K|].
      intros y [<-|Hy]; [exact E|]. now apply N.
  - intros (a & b & -> & K & N). rewrite (first_known_app a); [|exact N]. cbn. now rewrite K.
Qed.

Lemma insert_app_above r l1 l2 : Forall (fun x => (r_prio r < r_prio x)%Z) l1 -> insert r (l1 ++ l2) = l1 ++ insert r l2.
Proof.
  induction 1 as [|x l1 Hx H IH]; [reflexivity|]. cbn. destruct (Z.leb_spec (r_prio x) (r_prio r)); [lia|]. now rewrite IH.
Qed.
