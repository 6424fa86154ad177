(** The calls of a client over a flat index and the disk backend, cut into the steps at which the
    process can die: every file operation of the backend is a step of its own (StepModel.v), and
    so is every statement of the index.

    Sources: /repo/src/valori/client.py:49-130, /repo/src/valori/indices/flat.py:47-214,
    /repo/src/valori/storage/disk.py:47-168. *)

From Coq Require Import List Arith ZArith NArith Bool.
From Verif Require Import PyBase Payload StorageModel StorageSpec StorageRun StorageOk Num
  ClientModel DbSpec ClientRun FlatModel StepModel FlatSteps.
Import ListNotations.
Open Scope py_scope.

Section FlatDisk.
  Context {F Mt : Type} `{Num F} `{Payload (list F) Mt} `{Unicode}.
  Context (dirorder : list pystr -> list pystr) (mt : metric).

  Let D : Type := disk (list F) Mt.
  Let W : Type := (flat F * D)%type.
  Let Cl : Type := client (flat F) D.
  Let C : storage_class D (list F) Mt := disk_class dirorder.
  Let IC := flat_class C mt.

  (** A call on the storage object, step by step; flat.py:72,177,205. *)
  Fixpoint sb_steps {A} (p : prog D A) : prog W A :=
    match p with
    | Return r => Return r
    | Step f => Step (fun w => match f (snd w) with (p', d) => (sb_steps p', (fst w, d)) end)
    end.

  (** A call on the index object, step by step; client.py:73,88,98. *)
  Fixpoint index_steps {A} (p : prog W A) : prog Cl A :=
    match p with
    | Return r => Return r
    | Step f => Step (fun c => match f (c_index c, c_storage c) with
                               | (p', w) => (index_steps p', MkClient (fst w) (snd w) (c_init c))
                               end)
    end.

  (** The loop of flat.py:62-80, from row [i] on. *)
  Fixpoint rows_disk_steps (fresh : nat -> pystr) (metadata : option (list (option Mt)))
      (i : nat) (rows : list (list F)) : prog W (list pystr) :=
    match rows with
    | [] => Return (Ok [])
    | vector :: rows' =>
        let vector_id := fresh i in
        sb_steps (store_steps dirorder vector_id vector (row_meta metadata i)) ;~
        fwrite (fun x => fset_ids (f_ids x ++ [vector_id]) x) ;~
        fwrite (fun x => fset_cache (dset vector_id vector (f_cache x)) x) ;~
        ids <~ rows_disk_steps fresh metadata (1 + i) rows' ;;
        Return (Ok (vector_id :: ids))
    end.

  (** [FlatIndex.insert] of a matrix; flat.py:47-86. *)
  Definition insert_disk_steps (fresh : nat -> pystr) (rows : list (list F))
      (metadata : option (list (option Mt))) : prog W (list pystr) :=
    opened <~ fread f_init ;;
    if negb opened then Return (Raise EIndex)
    else pwrap EIndex
           (inserted_ids <~ rows_disk_steps fresh metadata 0 rows ;;
            fwrite fset_count ;~
            Return (Ok inserted_ids)).

  (** The loop of flat.py:175-184. *)
  Fixpoint ids_disk_steps (ids : list pystr) (success : bool) : prog W bool :=
    match ids with
    | [] => Return (Ok success)
    | vector_id :: ids' =>
        deleted <~ sb_steps (delete_steps dirorder vector_id) ;;
        fwrite (fun x => if memb vector_id (f_ids x)
                         then fset_ids (remove_first vector_id (f_ids x)) x else x) ;~
        fwrite (fun x => fset_cache (ddel vector_id (f_cache x)) x) ;~
        ids_disk_steps ids' (if deleted then success else false)
    end.

  (** [FlatIndex.delete]; flat.py:162-190. *)
  Definition delete_disk_steps (ids : list pystr) : prog W bool :=
    opened <~ fread f_init ;;
    if negb opened then Return (Raise EIndex)
    else pwrap EIndex
           (success <~ ids_disk_steps ids true ;;
            fwrite fset_count ;~
            Return (Ok success)).

  (** [FlatIndex.update]; flat.py:192-214. *)
  Definition update_disk_steps (id : pystr) (vector : list F) (metadata : option Mt)
      : prog W bool :=
    opened <~ fread f_init ;;
    if negb opened then Return (Raise EIndex)
    else pwrap EIndex
           (updated <~ sb_steps (update_steps id vector metadata) ;;
            if negb updated then Return (Ok false)
            else fwrite (fun x => fset_cache (dset id vector (f_cache x)) x) ;~ Return (Ok true)).

  (** The guard of client.py:70-71, 86-87, 95-96. *)
  Definition guard_steps {A} (p : prog Cl A) : prog Cl A :=
    opened <~ atomic (c <- get ;; ret (c_init c)) ;;
    if negb opened then Return (Raise EValori) else p.

  (** The caller sees the value or the exception. *)
  Fixpoint seen {S A} (f : A -> cret F Mt) (p : prog S A) : prog S (cret F Mt) :=
    match p with
    | Return (Ok a) => Return (Ok (f a))
    | Return (Raise e) => Return (Ok (AExn e))
    | Step g => Step (fun s => match g s with (p', s') => (seen f p', s') end)
    end.

  (** A client call; client.py:66-98.  Calls that write no file are one step. *)
  Definition client_steps (o : cop F Mt (list F -> list nat)) : prog Cl (cret F Mt) :=
    match o with
    | CInsert _ fresh (Mat rows) meta =>
        seen AIds (guard_steps (index_steps (insert_disk_steps fresh rows meta)))
    | CDelete ids => seen ABool (guard_steps (index_steps (delete_disk_steps ids)))
    | CUpdate _ id v m => seen ABool (guard_steps (index_steps (update_disk_steps id v m)))
    | _ => Step (fun c => let (r, c') := cl_step C IC c o in (Return (Ok r), c'))
    end.

  (** What happens to a database: a call that runs to its end, or a call in which the process
      dies after [n] steps; then a new process makes a new client over the same directory. *)
  Inductive event : Type :=
  | Done (o : cop F Mt (list F -> list nat))
  | Dies (o : cop F Mt (list F -> list nat)) (n : nat).

  Definition after_event (c : Cl) (e : event) : Cl :=
    match e with
    | Done o => snd (cl_step C IC c o)
    | Dies o n => cl_reopen C IC (run_for n (client_steps o) c)
    end.

  (** The database after a history that starts with an empty directory. *)
  Definition after_events (es : list event) : Cl :=
    fold_left after_event es (cl_new IC (disk_new [] [])).
End FlatDisk.
Arguments event : clear implicits.
