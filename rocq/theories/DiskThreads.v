(** The disk backend (/repo/src/valori/storage/disk.py), which has no lock, used by threads: reading
    a record in steps, and threads that make several calls. *)

From Coq Require Import List Arith ZArith NArith Lia Bool.
From Verif Require Import PyBase Payload StorageModel StorageSpec StorageRun StepModel LshSteps.
Import ListNotations.
Open Scope py_scope.

Section DiskThreads.
  Context {V Mt : Type} `{Payload V Mt} `{Unicode}.
  Context (dirorder : list pystr -> list pystr).

  (** [np.load(vector_path)]; disk.py:95.  A file that is gone by now is FileNotFoundError, a
      partly written one ValueError or EOFError. *)
  Definition load_vector (safe_id : pystr) : prog (disk V Mt) V :=
    atomic (s <- get ;; match dget (npy_name safe_id) (d_vectors s) with
                        | None => raise EOs
                        | Some FBad => raise EValue
                        | Some (FGood v) => ret v
                        end).

  (** [with open(metadata_path, "rb") as f: metadata = pickle.load(f)]; disk.py:101-102. *)
  Definition load_metadata (safe_id : pystr) : prog (disk V Mt) Mt :=
    atomic (s <- get ;; match dget (pkl_name safe_id) (d_metadata s) with
                        | None => raise EOs
                        | Some FBad => raise EValue
                        | Some (FGood m) => ret m
                        end).

  (** [DiskStorage.retrieve_vector]; disk.py:81-106: test, load, test, load. *)
  Definition retrieve_steps (id : pystr) : prog (disk V Mt) (option (V * option Mt)) :=
    check_open ;~
    pwrap EStorage
      (exists_vector <~ has_vector (sanitize_id id) ;;
       if negb exists_vector then Return (Ok None)
       else
         vector <~ load_vector (sanitize_id id) ;;
         exists_metadata <~ has_metadata (sanitize_id id) ;;
         if exists_metadata
         then metadata <~ load_metadata (sanitize_id id) ;;
              Return (Ok (Some (vector, Some metadata)))
         else Return (Ok (Some (vector, None)))).

  (** The caller's view of one call: its value or its exception. *)
  Fixpoint answer {S A} (f : A -> sret V Mt) (p : prog S A) : prog S (sret V Mt) :=
    match p with
    | Return (Ok a) => Return (Ok (f a))
    | Return (Raise e) => Return (Ok (RExn e))
    | Step g => Step (fun s => match g s with (p', s') => (answer f p', s') end)
    end.

  (** One call; disk.py:47-168.  Only the calls about one id are given here: listing, statistics,
      [initialize] and [close] are not. *)
  Definition call_steps (o : sop V Mt) : prog (disk V Mt) (sret V Mt) :=
    match o with
    | OStore id v m => answer RBool (store_steps dirorder id v m)
    | ORetrieve id => answer RRec (retrieve_steps id)
    | ODelete id => answer RBool (delete_steps dirorder id)
    | OUpdate id v m => answer RBool (update_steps id v m)
    | _ => Return (Ok RUnit)
    end.

  (** A thread that makes one call after another. *)
  Definition calls_steps (ops : list (sop V Mt)) : prog (disk V Mt) (list (sret V Mt)) :=
    pmapM ops call_steps.

  (** Thread [t] makes the [t]-th list of calls. *)
  Definition disk_pool (jobs : list (list (sop V Mt))) (t : nat)
      : prog (disk V Mt) (list (sret V Mt)) :=
    match nth_error jobs t with
    | Some ops => calls_steps ops
    | None => Return (Ok [])
    end.
End DiskThreads.
