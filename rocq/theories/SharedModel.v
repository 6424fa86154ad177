(** Several processes using one data directory, each through objects of its own, one call at a
    time.  Calls of different processes do not overlap here; what a call keeps in its object is
    private, what it keeps in files is shared. *)

From Coq Require Import List Arith ZArith NArith Bool.
From Verif Require Import PyBase Payload StorageModel StorageSpec StorageRun Num ClientModel DbSpec ClientRun FlatModel.
Import ListNotations.
Open Scope py_scope.

Section Shared.
  Context {V Mt : Type} `{Payload V Mt} `{Unicode}.
  Context (dirorder : list pystr -> list pystr).

  (** The two directories (disk.py:24-30), and of each process's [DiskStorage] the fields
      [_vector_count] and [_initialized] (disk.py:28-30), the only ones that change. *)
  Record shared : Type := MkShared {
    sh_vectors : dict pystr (fcontent V);
    sh_metadata : dict pystr (fcontent Mt);
    sh_own : nat -> Z * bool
  }.

  (** The storage object of process [p], over the files as they are. *)
  Definition sh_disk (s : shared) (p : nat) : disk V Mt :=
    MkDisk (sh_vectors s) (sh_metadata s) (fst (sh_own s p)) (snd (sh_own s p)).

  (** Process [p] makes one call; disk.py:32-218. *)
  Definition sh_step (s : shared) (c : nat * sop V Mt) : sret V Mt * shared :=
    let (r, d) := sc_step (disk_class dirorder) (sh_disk s (fst c)) (snd c) in
    (r, MkShared (d_vectors d) (d_metadata d)
          (fun q => if Nat.eqb q (fst c) then (d_count d, d_init d) else sh_own s q)).

  (** A history of calls. *)
  Fixpoint sh_run (s : shared) (h : list (nat * sop V Mt)) : list (sret V Mt) * shared :=
    match h with
    | [] => ([], s)
    | c :: h' =>
        let (r, s') := sh_step s c in
        let (rs, s'') := sh_run s' h' in
        (r :: rs, s'')
    end.

  (** An empty directory, and new objects in all processes; disk.py:24-30. *)
  Definition sh_new : shared := MkShared [] [] (fun _ => (0%Z, false)).
End Shared.
Arguments shared : clear implicits.

Section SharedClients.
  Context {F Mt : Type} `{Num F} `{Payload (list F) Mt} `{Unicode}.
  Context (dirorder : list pystr -> list pystr) (mt : metric).

  (** The directories, and each process's client with its flat index (client.py:24-47,
      flat.py:22-31) and the fields of its storage object. *)
  Record shclients : Type := MkShC {
    shc_vectors : dict pystr (fcontent (list F));
    shc_metadata : dict pystr (fcontent Mt);
    shc_own : nat -> flat F * (Z * bool) * bool
  }.

  (** The client of process [p], over the files as they are. *)
  Definition shc_client (s : shclients) (p : nat) : client (flat F) (disk (list F) Mt) :=
    match shc_own s p with
    | (x, (c, i), open) => MkClient x (MkDisk (shc_vectors s) (shc_metadata s) c i) open
    end.

  (** Process [p] makes one call; client.py:49-130. *)
  Definition shc_step (s : shclients) (c : nat * cop F Mt (list F -> list nat))
      : cret F Mt * shclients :=
    let (r, cl) := cl_step (disk_class dirorder) (flat_class (disk_class dirorder) mt)
                           (shc_client s (fst c)) (snd c) in
    let d := c_storage cl in
    (r, MkShC (d_vectors d) (d_metadata d)
          (fun q => if Nat.eqb q (fst c) then (c_index cl, (d_count d, d_init d), c_init cl)
                    else shc_own s q)).

  (** A history of calls. *)
  Fixpoint shc_run (s : shclients) (h : list (nat * cop F Mt (list F -> list nat)))
      : list (cret F Mt) * shclients :=
    match h with
    | [] => ([], s)
    | c :: h' =>
        let (r, s') := shc_step s c in
        let (rs, s'') := shc_run s' h' in
        (r :: rs, s'')
    end.

  (** An empty directory and new clients; client.py:24-47. *)
  Definition shc_new : shclients := MkShC [] [] (fun _ => (flat_new, (0%Z, false), false)).
End SharedClients.
Arguments shclients : clear implicits.
