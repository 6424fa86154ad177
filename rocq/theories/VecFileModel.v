(** Model of [save_vectors_to_file] and [load_vectors_from_file], /repo/src/valori/utils/helpers.py
    255-327, and of what Python's json module makes of a value on the way to a file and back. *)

From Coq Require Import String List Arith ZArith NArith Bool.
From Verif Require Import PyBase PyMore PyValue ValidateModel FsModel PersistModel ParserChoiceModel.
Import ListNotations.
Open Scope py_scope.

(** ** json *)

Section Json.
  (** [float.__repr__], used for keys; helpers.py:288. *)
  Context (repr : pyfloat -> pystr).

  (** The text of a key; json.dumps as called in helpers.py:288.  [json_key] says which keys are
      accepted. *)
  Definition key_text (k : pyval) : pystr :=
    match k with
    | PStr s => s
    | PInt z => str_Z z
    | PBool true => py "true"
    | PBool false => py "false"
    | PNone => py "null"
    | PFloat f => repr f
    | _ => []                                                           (* not reached *)
    end.

  (** [d[k] = v] while json.load builds a dictionary (helpers.py:319); keys are strings there. *)
  Fixpoint key_set (k : pyval) (v : pyval) (d : list (pyval * pyval)) : list (pyval * pyval) :=
    match d with
    | [] => [(k, v)]
    | (k', v') :: d' => if key_eqb k k' then (k', v) :: d' else (k', v') :: key_set k v d'
    end.

  Definition build (d : list (pyval * pyval)) : list (pyval * pyval) :=
    fold_left (fun acc kv => key_set (fst kv) (snd kv) acc) d [].

  (** What json.load (helpers.py:319) finds where json.dump (helpers.py:288) wrote [v]: tuples
      have become lists and keys strings; floats, non-finite ones included, and integers are
      written exactly. *)
  Fixpoint json_back (v : pyval) : pyval :=
    match v with
    | PList l => PList (map json_back l)
    | PTuple l => PList (map json_back l)
    | PDict d => PDict (build (map (fun kv => (PStr (key_text (fst kv)), json_back (snd kv))) d))
    | v => v
    end.
End Json.

(** ** Arrays *)

(** Element types: floats and integers of a number of bits, at most 64 (helpers.py:256). *)
Inductive eltype : Type := TFloat (bits : N) | TInt (bits : N).

(** The [vectors] argument: an array of one or two dimensions, helpers.py:256; [V2 t w rows] has
    [length rows] rows of width [w].  Elements are exact values [F]. *)
Inductive varr (F : Type) : Type :=
| V1 (t : eltype) (l : list F)
| V2 (t : eltype) (w : nat) (rows : list (list F)).
Arguments V1 {F} t l.
Arguments V2 {F} t w rows.

(** The type [np.array] gives to a list of Python numbers (helpers.py:320). *)
Definition wide (t : eltype) : eltype :=
  match t with TFloat _ => TFloat 64 | TInt _ => TInt 64 end.

(** [np.array(vectors.tolist())]: helpers.py:282 and 320.  The shape is read off the lists, and a
    list without numbers is one of 64-bit floats. *)
Definition relisted {F} (a : varr F) : varr F :=
  match a with
  | V1 _ [] => V1 (TFloat 64) []
  | V1 t l => V1 (wide t) l
  | V2 _ _ [] => V1 (TFloat 64) []
  | V2 _ 0 rows => V2 (TFloat 64) 0 rows
  | V2 t w rows => V2 (wide t) w rows
  end.

(** ** Files *)

(** Metadata: a list of dictionaries (helpers.py:257). *)
Definition metas : Type := list (list (pyval * pyval)).

(** What is in a file: an npz archive with an array of vectors and one of dictionaries, a pickled
    dictionary, a JSON text, or the beginning of one of these (helpers.py:274-288). *)
Inductive vfile (F : Type) : Type :=
| FNpz (v : varr F) (m : metas)
| FPickle (v : varr F) (m : metas)
| FJson (v : varr F) (m : metas)
| FJunk.
Arguments FNpz {F} v m.
Arguments FPickle {F} v m.
Arguments FJson {F} v m.
Arguments FJunk {F}.

Section Files.
  Context {F : Type}.
  (** [float.__repr__]; whether the pickle module accepts the metadata; the directories that
      exist; the working directory. *)
  Context (repr : pyfloat -> pystr) (pickles : metas -> bool) (isdir : loc -> bool) (cwd : loc).

  Notation store := (dict loc (vfile F)).

  (** The place a path leads to, ".." taken off lexically (no symbolic links). *)
  Definition place (parts : list pystr) : loc := fold_left FsModel.step parts [].

  (** Open for writing (empties the file) and fill; helpers.py:275, 278-279, 287-288.  A writer
      that raises leaves the beginning of its output. *)
  Definition put_file (parts : list pystr) (x : vfile F) (fine : bool) : M store unit :=
    let l := place parts in
    if isdir l || negb (isdir (removelast l)) then raise EOs
    else modify (dset l FJunk) ;;; if fine then modify (dset l x) else raise EType.

  (** helpers.py:255-292. *)
  Definition save_vectors (v : varr F) (m : metas) (path format : pystr) : M store unit :=
    let parts := full cwd path in
    if eqb format (py "npz") then put_file (npz_path parts) (FNpz v m) (pickles m)
    else if eqb format (py "pickle") then put_file parts (FPickle v m) (pickles m)
    else if eqb format (py "json")
         then put_file parts (FJson v m) (forallb (fun d => json_ok (PDict d)) m)
    else raise EValidation.

  (** [np.load(filepath, allow_pickle=True)] and the two accesses; helpers.py:308-311.  A pickle
      is loaded as well, but its metadata is a list and has no [tolist]. *)
  Definition read_as_npz (x : option (vfile F)) : result (varr F * list pyval) :=
    match x with
    | Some (FNpz v m) => Ok (v, map PDict m)
    | Some (FPickle _ _) => Raise EAttr
    | Some _ => Raise EValue
    | None => Raise EOs
    end.

  (** helpers.py:313-317. *)
  Definition read_as_pickle (x : option (vfile F)) : result (varr F * list pyval) :=
    match x with
    | Some (FPickle v m) => Ok (v, map PDict m)
    | Some _ => Raise EValue
    | None => Raise EOs
    end.

  (** helpers.py:319-323. *)
  Definition read_as_json (x : option (vfile F)) : result (varr F * list pyval) :=
    match x with
    | Some (FJson v m) => Ok (relisted v, map (fun d => json_back repr (PDict d)) m)
    | Some _ => Raise EValue
    | None => Raise EOs
    end.

  (** helpers.py:295-327. *)
  Definition load_vectors (path : pystr) : M store (varr F * list pyval) :=
    s <- get ;;
    let x := dget (place (full cwd path)) s in
    if eqb (path_suffix path) (py ".npz") then lift (read_as_npz x)
    else if eqb (path_suffix path) (py ".pkl") then lift (read_as_pickle x)
    else if eqb (path_suffix path) (py ".json") then lift (read_as_json x)
    else raise EValidation.
End Files.
