(** [FlatIndex] cut into the statements between which another thread can come in.  The class has
    no lock (flat.py:25-31); the backend's own lock makes each storage call one step
    (memory.py, hybrid.py; for the memory backend this is C13). *)

From Coq Require Import List Arith ZArith NArith Bool.
From Verif Require Import PyBase Payload StorageModel StorageSpec StorageRun Num ClientModel
  FlatModel StepModel LshSteps.
Import ListNotations.
Open Scope py_scope.

Section FlatSteps.
  Context {F Mt S : Type} `{Num F}.
  Context (C : storage_class S (list F) Mt) (mt : metric).

  Let W : Type := (flat F * S)%type.

  (** Reading a field of the index. *)
  Definition fread {A} (f : flat F -> A) : prog W A := atomic (x <- get_ix ;; ret (f x)).

  (** Writing a field of the index. *)
  Definition fwrite (f : flat F -> flat F) : prog W unit := atomic (set_ix f).

  (** [self._vector_count = n]; the value was read before. *)
  Definition fput_count (n : Z) (x : flat F) : flat F :=
    MkFlat (f_ids x) (f_cache x) n (f_init x).

  (** [self._vector_count = len(self.vector_ids)]; flat.py:82,186: a read and a write. *)
  Definition recount_steps : prog W unit :=
    n <~ fread (fun x => Z.of_nat (length (f_ids x))) ;;
    fwrite (fput_count n).

  (** The loop flat.py:64-80 from row [i] on. *)
  Fixpoint insert_rows_steps (fresh : nat -> pystr) (metadata : option (list (option Mt)))
      (i : nat) (rows : list (list F)) : prog W (list pystr) :=
    match rows with
    | [] => Return (Ok [])
    | vector :: rows' =>
        let vector_id := fresh i in
        atomic (on_sb (sc_store C vector_id vector (row_meta metadata i))) ;~
        fwrite (fun x => fset_ids (f_ids x ++ [vector_id]) x) ;~
        fwrite (fun x => fset_cache (dset vector_id vector (f_cache x)) x) ;~
        ids <~ insert_rows_steps fresh metadata (1 + i) rows' ;;
        Return (Ok (vector_id :: ids))
    end.

  (** [insert]; flat.py:47-86, for a matrix. *)
  Definition flat_insert_steps (fresh : nat -> pystr) (rows : list (list F))
      (metadata : option (list (option Mt))) : prog W (list pystr) :=
    opened <~ fread f_init ;;
    if negb opened then Return (Raise EIndex)
    else pwrap EIndex
           (inserted_ids <~ insert_rows_steps fresh metadata 0 rows ;;
            recount_steps ;~
            Return (Ok inserted_ids)).

  (** The loop flat.py:111-122.  A [for] over a Python list looks the next position up in the
      list as it is by then, and ends when that position is beyond the end.  [n] bounds the
      number of rounds (step programs are finite); the bound is not reached while it exceeds the
      length of the list. *)
  Fixpoint load_steps (n : nat) (i : nat) : prog W (list (pystr * list F)) :=
    match n with
    | 0 => Return (Raise EAssert)
    | Datatypes.S n' =>
        next <~ fread (fun x => nth_error (f_ids x) i) ;;
        match next with
        | None => Return (Ok [])
        | Some vector_id =>
            cached <~ fread (fun x => dmem vector_id (f_cache x)) ;;
            if cached then
              vector <~ atomic (x <- get_ix ;; match dget vector_id (f_cache x) with
                                               | Some v => ret v
                                               | None => raise EKey
                                               end) ;;
              rest <~ load_steps n' (1 + i) ;;
              Return (Ok ((vector_id, vector) :: rest))
            else
              result <~ atomic (on_sb (sc_retrieve C vector_id)) ;;
              match result with
              | None => load_steps n' (1 + i)
              | Some (vector, _) =>
                  fwrite (fun x => fset_cache (dset vector_id vector (f_cache x)) x) ;~
                  rest <~ load_steps n' (1 + i) ;;
                  Return (Ok ((vector_id, vector) :: rest))
              end
        end
    end.

  (** The loop flat.py:143-155: each selected row asks the backend once. *)
  Definition results_steps (valid_ids : list pystr) (distances : list F) (idxs : list nat)
      : prog W (list (hit F Mt)) :=
    pmapM idxs (fun idx => atomic (flat_result C valid_ids distances idx)).

  (** [search]; flat.py:88-160, for a one-dimensional query. *)
  Definition flat_search_steps (rounds : nat) (argsort : list F -> list nat) (q : list F) (k : Z)
      : prog W (list (hit F Mt)) :=
    opened <~ fread f_init ;;
    if negb opened then Return (Raise EIndex)
    else pwrap EIndex
           (none <~ fread (fun x => Nat.eqb (length (f_ids x)) 0) ;;
            if none then Return (Ok [])
            else
              n <~ fread (fun x => Z.of_nat (length (f_ids x))) ;;
              let k := Z.min k n in
              loaded <~ load_steps rounds 0 ;;
              if Nat.eqb (length loaded) 0 then Return (Ok [])
              else match matrix_distances mt q (map snd loaded) with
                   | Raise e => Return (Raise e)
                   | Ok distances =>
                       results_steps (map fst loaded) distances (slice_to k (argsort distances))
                   end).

  (** The loop flat.py:174-184; [list.remove] raises ValueError when the element is gone. *)
  Fixpoint delete_ids_steps (ids : list pystr) (success : bool) : prog W bool :=
    match ids with
    | [] => Return (Ok success)
    | vector_id :: ids' =>
        deleted <~ atomic (on_sb (sc_delete C vector_id)) ;;
        present <~ fread (fun x => memb vector_id (f_ids x)) ;;
        (if present then
           atomic (x <- get_ix ;;
                   if memb vector_id (f_ids x)
                   then set_ix (fun x => fset_ids (remove_first vector_id (f_ids x)) x)
                   else raise EValue)
         else Return (Ok tt)) ;~
        fwrite (fun x => fset_cache (ddel vector_id (f_cache x)) x) ;~
        delete_ids_steps ids' (if deleted then success else false)
    end.

  (** [delete]; flat.py:162-190. *)
  Definition flat_delete_steps (ids : list pystr) : prog W bool :=
    opened <~ fread f_init ;;
    if negb opened then Return (Raise EIndex)
    else pwrap EIndex
           (success <~ delete_ids_steps ids true ;;
            recount_steps ;~
            Return (Ok success)).

  (** [update]; flat.py:192-214: the storage call and the write to the cache are two steps. *)
  Definition flat_update_steps (id : pystr) (vector : list F) (metadata : option Mt)
      : prog W bool :=
    opened <~ fread f_init ;;
    if negb opened then Return (Raise EIndex)
    else pwrap EIndex
           (updated <~ atomic (on_sb (sc_update C id vector metadata)) ;;
            if negb updated then Return (Ok false)
            else
              fwrite (fun x => fset_cache (dset id vector (f_cache x)) x) ;~
              Return (Ok true)).

  (** Threads that are each inside one call of the index, and what they return. *)
  Inductive job : Type :=
  | JInsert (fresh : nat -> pystr) (rows : list (list F)) (metadata : option (list (option Mt)))
  | JSearch (rounds : nat) (argsort : list F -> list nat) (q : list F) (k : Z)
  | JDelete (ids : list pystr)
  | JUpdate (id : pystr) (vector : list F) (metadata : option Mt).
  Inductive jret : Type :=
  | RIds (ids : list pystr)
  | RHits (hits : list (hit F Mt))
  | RDone (ok : bool).

  Definition job_prog (j : job) : prog W jret :=
    match j with
    | JInsert fresh rows metadata =>
        ids <~ flat_insert_steps fresh rows metadata ;; Return (Ok (RIds ids))
    | JSearch rounds argsort q k =>
        hits <~ flat_search_steps rounds argsort q k ;; Return (Ok (RHits hits))
    | JDelete ids => ok <~ flat_delete_steps ids ;; Return (Ok (RDone ok))
    | JUpdate id vector metadata =>
        ok <~ flat_update_steps id vector metadata ;; Return (Ok (RDone ok))
    end.

  (** Thread [t] runs the [t]-th job. *)
  Definition pool (jobs : list job) (t : nat) : prog W jret :=
    match nth_error jobs t with
    | Some j => job_prog j
    | None => Return (Ok (RDone true))
    end.
End FlatSteps.
Arguments job : clear implicits.
Arguments jret : clear implicits.
