(** Calls cut into the steps at which another thread can come in between or the process can die,
    and the write calls of [DiskStorage] in that form. *)

From Coq Require Import List Arith ZArith NArith Lia Bool.
From Verif Require Import PyBase Payload StorageModel.
Import ListNotations.

(** ** Step programs *)

(** The rest of a running call over shared state [S]: it has returned or raised, or it takes one
    more step. *)
Inductive prog (S A : Type) : Type :=
| Return (r : result A)
| Step (f : S -> prog S A * S).
Arguments Return {S A} r.
Arguments Step {S A} f.

Section Prog.
  Context {S : Type}.

  (** Statement sequencing; an exception skips the rest. *)
  Fixpoint pbind {A B} (p : prog S A) (k : A -> prog S B) : prog S B :=
    match p with
    | Return (Ok a) => k a
    | Return (Raise e) => Return (Raise e)
    | Step f => Step (fun s => match f s with (p', s') => (pbind p' k, s') end)
    end.

  (** [try: p  except Exception as e: raise E(...)]. *)
  Fixpoint pwrap {A} (E : exn) (p : prog S A) : prog S A :=
    match p with
    | Return (Ok a) => Return (Ok a)
    | Return (Raise _) => Return (Raise E)
    | Step f => Step (fun s => match f s with (p', s') => (pwrap E p', s') end)
    end.

  (** A method run as one step. *)
  Definition atomic {A} (m : M S A) : prog S A :=
    Step (fun s => match m s with (r, s') => (Return r, s') end).

  (** Run to the end without interruption. *)
  Fixpoint finish {A} (p : prog S A) (s : S) : result A * S :=
    match p with
    | Return r => (r, s)
    | Step f => match f s with (p', s') => finish p' s' end
    end.

  (** The state after at most [n] steps. *)
  Fixpoint run_for {A} (n : nat) (p : prog S A) (s : S) : S :=
    match n, p with
    | Datatypes.S n', Step f => match f s with (p', s') => run_for n' p' s' end
    | _, _ => s
    end.

  (** Two calls in two threads: a schedule names the thread of each step (a thread that has
      finished does nothing). *)
  Fixpoint interleave {A B} (sched : list bool) (p : prog S A) (q : prog S B) (s : S)
      : prog S A * prog S B * S :=
    match sched with
    | [] => (p, q, s)
    | true :: r =>
        match p with
        | Return _ => interleave r p q s
        | Step f => match f s with (p', s') => interleave r p' q s' end
        end
    | false :: r =>
        match q with
        | Return _ => interleave r p q s
        | Step f => match f s with (q', s') => interleave r p q' s' end
        end
    end.
End Prog.

Notation "x <~ p ;; k" := (pbind p (fun x => k))
  (at level 61, p at next level, right associativity) : py_scope.
Notation "p ;~ k" := (pbind p (fun _ => k))
  (at level 61, right associativity) : py_scope.

(** ** [DiskStorage] step by step *)

Section DiskSteps.
  Context {V Mt : Type} `{Payload V Mt} `{Unicode}.
  Context (dirorder : list pystr -> list pystr).
  Open Scope py_scope.

  (** Replace the contents of the vectors directory, of the metadata directory. *)
  Definition set_vfiles (x : dict pystr (fcontent V)) (s : disk V Mt) : disk V Mt :=
    MkDisk x (d_metadata s) (d_count s) (d_init s).
  Definition set_mfiles (x : dict pystr (fcontent Mt)) (s : disk V Mt) : disk V Mt :=
    MkDisk (d_vectors s) x (d_count s) (d_init s).

  (** [if not self._initialized: raise StorageError]; disk.py:53-54, 110-111, 140-141. *)
  Definition check_open : prog (disk V Mt) unit :=
    atomic (s <- get ;; if negb (d_init s) then raise EStorage else ret tt).

  (** [np.save(vector_path, vector)]; disk.py:62,152.  Opening the file for writing creates or
      empties it; then the bytes are written into that file, which is not seen when the name has
      been removed in between.  A partly written file is as unreadable as an empty one, and one
      thread's bytes are not mixed with another's (both write from the start of the file, and a
      reader stops at the end of the first complete object). *)
  Definition save_vector (safe_id : pystr) (v : V) : prog (disk V Mt) unit :=
    atomic (modify (fun s => set_vfiles (dset (npy_name safe_id) FBad (d_vectors s)) s)) ;~
    atomic (modify (fun s => if dmem (npy_name safe_id) (d_vectors s)
                             then set_vfiles (dset (npy_name safe_id) (FGood v) (d_vectors s)) s
                             else s)).

  (** [with open(metadata_path, "wb") as f: pickle.dump(metadata, f)]; disk.py:67-68,157-158. *)
  Definition save_metadata (safe_id : pystr) (m : Mt) : prog (disk V Mt) unit :=
    atomic (modify (fun s => set_mfiles (dset (pkl_name safe_id) FBad (d_metadata s)) s)) ;~
    if picklable m
    then atomic (modify (fun s => if dmem (pkl_name safe_id) (d_metadata s)
                                  then set_mfiles (dset (pkl_name safe_id) (FGood m) (d_metadata s)) s
                                  else s))
    else Return (Raise EType).

  (** [path.unlink()], which raises when the file is missing; disk.py:73,120,126,163. *)
  Definition unlink_vector (safe_id : pystr) : prog (disk V Mt) unit :=
    atomic (s <- get ;;
            if dmem (npy_name safe_id) (d_vectors s)
            then modify (fun s => set_vfiles (ddel (npy_name safe_id) (d_vectors s)) s)
            else raise EOs).
  Definition unlink_metadata (safe_id : pystr) : prog (disk V Mt) unit :=
    atomic (s <- get ;;
            if dmem (pkl_name safe_id) (d_metadata s)
            then modify (fun s => set_mfiles (ddel (pkl_name safe_id) (d_metadata s)) s)
            else raise EOs).

  (** [path.exists()]; disk.py:72,119,125,148,162. *)
  Definition has_vector (safe_id : pystr) : prog (disk V Mt) bool :=
    atomic (s <- get ;; ret (dmem (npy_name safe_id) (d_vectors s))).
  Definition has_metadata (safe_id : pystr) : prog (disk V Mt) bool :=
    atomic (s <- get ;; ret (dmem (pkl_name safe_id) (d_metadata s))).

  (** disk.py:71-73, 124-126, 161-163: remove the metadata file if it exists. *)
  Definition drop_metadata (safe_id : pystr) : prog (disk V Mt) unit :=
    b <~ has_metadata safe_id ;;
    if b then unlink_metadata safe_id else Return (Ok tt).

  (** disk.py:64-73, 154-163. *)
  Definition put_metadata (safe_id : pystr) (m : option Mt) : prog (disk V Mt) unit :=
    match m with
    | Some x => save_metadata safe_id x
    | None => drop_metadata safe_id
    end.

  (** [self._vector_count = len(list(glob))]; disk.py:75,129. *)
  Definition recount : prog (disk V Mt) unit := atomic (disk_recount dirorder).

  (** [DiskStorage.store_vector]; disk.py:47-79. *)
  Definition store_steps (id : pystr) (v : V) (m : option Mt) : prog (disk V Mt) bool :=
    match id with
    | [] => Return (Ok false)
    | _ =>
        check_open ;~
        pwrap EStorage
          (save_vector (sanitize_id id) v ;~
           put_metadata (sanitize_id id) m ;~
           recount ;~
           Return (Ok true))
    end.

  (** [DiskStorage.update_vector]; disk.py:136-168. *)
  Definition update_steps (id : pystr) (v : V) (m : option Mt) : prog (disk V Mt) bool :=
    check_open ;~
    pwrap EStorage
      (b <~ has_vector (sanitize_id id) ;;
       if b
       then save_vector (sanitize_id id) v ;~
            put_metadata (sanitize_id id) m ;~
            Return (Ok true)
       else Return (Ok false)).

  (** [DiskStorage.delete_vector]; disk.py:108-134. *)
  Definition delete_steps (id : pystr) : prog (disk V Mt) bool :=
    check_open ;~
    pwrap EStorage
      (b <~ has_vector (sanitize_id id) ;;
       (if b then unlink_vector (sanitize_id id) else Return (Ok tt)) ;~
       drop_metadata (sanitize_id id) ;~
       if b then recount ;~ Return (Ok true) else Return (Ok false)).

  (** [DiskStorage.__init__] in a new process, over the files a dead one left; disk.py:24-30. *)
  Definition restart (s : disk V Mt) : disk V Mt := disk_new (d_vectors s) (d_metadata s).
End DiskSteps.
