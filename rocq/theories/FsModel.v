(** A file system as the persistence managers see it: a tree of directories and files, path
    strings as [pathlib] reads them, and a process that can die between any two changes.

    Symbolic links, permissions, full disks and name-length limits are not modelled. *)

From Coq Require Import String List Arith ZArith NArith Lia Bool.
From Verif Require Import PyBase PyMore Payload.
Import ListNotations.

(** An id in the list given to [save_vectors]: a string, a Python integer, a numpy integer, or
    any other object, with the answer to whether [json.dumps] accepts that object. *)
Inductive pid : Type :=
| IStr (s : pystr)
| IInt (z : Z)
| INp (z : Z)
| IObj (json : bool).

(** An entry of the operation log: kind of operation and its number; incremental.py:241-246
    (the timestamp and the data are not modelled). *)
Record line : Type := MkLine { l_kind : pystr; l_id : nat }.

Section Fs.
  Context {V O : Type}.

  (** What a reader finds in a file: the end of an interrupted or failed write, a pickle, an
      npz archive with its [vectors] and its [ids] ([None]: an array of objects, which
      [np.load] refuses), the checkpoint information, or the operation log. *)
  Inductive content : Type :=
  | CJunk
  | CPickle (o : O)
  | CNpz (v : V) (ids : option (list pid))
  | CInfo (last count : nat)
  | CLog (lines : list line).

  Inductive node : Type :=
  | Dir
  | File (c : content).

  (** A place in the tree: the names on the way from the root. *)
  Notation loc := (list pystr).

  (** The tree, the number of changes the process still makes before it dies ([None]: it does
      not die), and whether it has died. *)
  Record fsys : Type := MkFs {
    f_tree : dict loc node;
    f_fuse : option nat;
    f_dead : bool
  }.

  (** The node at a place; the root is a directory. *)
  Definition lookup (t : dict loc node) (l : loc) : option node :=
    match l with [] => Some Dir | _ => dget l t end.

  (** One name of a path, seen from the directory [cur]. *)
  Definition step (cur : loc) (c : pystr) : loc :=
    if eqb c (py "..") then removelast cur else cur ++ [c].

  (** The operating system follows a path; every name but the last must lead to a directory.
      [None] is ENOENT or ENOTDIR. *)
  Fixpoint walk (t : dict loc node) (cur : loc) (parts : list pystr) : option loc :=
    match parts with
    | [] => Some cur
    | c :: r =>
        match lookup t cur with
        | Some Dir => walk t (step cur c) r
        | _ => None
        end
    end.

  (** What a path leads to; [Path.exists()] is whether there is something. *)
  Definition node_at (t : dict loc node) (parts : list pystr) : option node :=
    match walk t [] parts with Some l => lookup t l | None => None end.

  (** A change of the file system is about to happen. *)
  Definition tick : M fsys unit :=
    fun s =>
      if f_dead s then (Raise EOs, s)
      else match f_fuse s with
           | None => (Ok tt, s)
           | Some 0%nat => (Raise EOs, MkFs (f_tree s) (f_fuse s) true)
           | Some (S n) => (Ok tt, MkFs (f_tree s) (Some n) false)
           end.

  (** Put a node at a place. *)
  Definition put (l : loc) (x : node) : M fsys unit :=
    tick ;;; modify (fun s => MkFs (dset l x (f_tree s)) (f_fuse s) (f_dead s)).

  (** [os.mkdir] with [exist_ok=True]. *)
  Definition mkdir1 (parts : list pystr) : M fsys unit :=
    s <- get ;;
    match walk (f_tree s) [] parts with
    | None => raise EOs
    | Some l =>
        match lookup (f_tree s) l with
        | None => put l Dir
        | Some Dir => ret tt
        | Some (File _) => raise EOs
        end
    end.

  (** The non-empty prefixes of a path, shortest first. *)
  Definition prefixes (parts : list pystr) : list (list pystr) :=
    map (fun k => firstn (S k) parts) (seq 0 (length parts)).

  (** [Path.mkdir(parents=True, exist_ok=True)]: [pathlib] creates the missing parents first. *)
  Definition mkdirs (parts : list pystr) : M fsys unit := forM (prefixes parts) mkdir1.

  (** [open(path, "wb")] empties or creates the file, the write fills it.  [fine = false]: the
      writer raises half-way. *)
  Definition write (parts : list pystr) (c : content) (fine : bool) : M fsys unit :=
    s <- get ;;
    match walk (f_tree s) [] parts with
    | None => raise EOs
    | Some l =>
        match lookup (f_tree s) l with
        | Some Dir => raise EOs
        | _ => put l (File CJunk) ;;; if fine then put l (File c) else raise EType
        end
    end.

  (** [open(path, "a")] and one line.  A half-written line is not modelled.  Text after
      something that is not a log does not change what its readers find, since
      [pickle.load] stops at the end of the pickle. *)
  Definition append (parts : list pystr) (x : line) : M fsys unit :=
    s <- get ;;
    match walk (f_tree s) [] parts with
    | None => raise EOs
    | Some l =>
        match lookup (f_tree s) l with
        | Some Dir => raise EOs
        | Some (File (CLog ls)) => put l (File (CLog (ls ++ [x])))
        | Some (File c) => put l (File c)
        | None => put l (File (CLog [x]))
        end
    end.

  (** [Path.touch()] on a path that does not exist. *)
  Definition touch (parts : list pystr) : M fsys unit :=
    s <- get ;;
    match walk (f_tree s) [] parts with
    | None => raise EOs
    | Some l => put l (File (CLog []))
    end.

  (** The names in a directory. *)
  Definition children (t : dict loc node) (l : loc) : list pystr :=
    map (fun j => last j []) (filter (fun j => negb (eqb j []) && eqb (removelast j) l) (dkeys t)).

  (** A new process finds the tree the old one left. *)
  Definition reboot (s : fsys) : fsys := MkFs (f_tree s) None false.

  (** The same process, about to die after [n] more changes. *)
  Definition doomed (n : nat) (s : fsys) : fsys := MkFs (f_tree s) (Some n) false.
End Fs.

Arguments content V O : clear implicits.
Arguments node V O : clear implicits.
Arguments fsys V O : clear implicits.
Arguments MkFs {V O} f_tree f_fuse f_dead.

(** A place in the tree. *)
Notation loc := (list (list N)) (only parsing).

(** ** Path strings *)

(** [s.split(c)]. *)
Fixpoint split (c : N) (s : pystr) : list pystr :=
  match s with
  | [] => [[]]
  | x :: s' =>
      if N.eqb x c then [] :: split c s'
      else match split c s' with
           | [] => [[x]]
           | w :: ws => (x :: w) :: ws
           end
  end.

(** The names in a path string: [pathlib] drops empty names and ".". *)
Definition names (p : pystr) : list pystr :=
  filter (fun c => negb (eqb c [] || eqb c (py "."))) (split 47 p).

(** [base / p]: an absolute [p] replaces [base]. *)
Definition full (base : loc) (p : pystr) : list pystr :=
  match p with
  | 47%N :: _ => names p
  | _ => base ++ names p
  end.

(** [name.endswith(suffix)]. *)
Definition has_suffix (suffix name : pystr) : bool :=
  eqb (skipn (length name - length suffix) name) suffix.

(** The file [np.savez] writes when given a path: ".npz" is appended to the string unless it
    is there already (numpy/lib/npyio.py, [_savez]). *)
Definition npz_path (parts : list pystr) : list pystr :=
  match parts with
  | [] => [py ".npz"]
  | _ =>
      let n := last parts [] in
      if has_suffix (py ".npz") n then parts else removelast parts ++ [n ++ py ".npz"]
  end.
