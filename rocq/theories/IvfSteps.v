(** [IVFIndex.insert] cut into the statements between which another thread can come in.  The class
    has no lock (ivf.py:25-38); the backend's own lock makes each storage call one step (memory.py,
    hybrid.py; for the memory backend this is C13). *)

From Coq Require Import List Arith ZArith NArith Bool.
From Verif Require Import PyBase Payload StorageModel StorageSpec StorageRun Num ClientModel
  IvfModel StepModel LshSteps.
Import ListNotations.
Open Scope py_scope.

Section IvfSteps.
  Context {F Mt S : Type} `{Num F}.
  Context (C : storage_class S (list F) Mt) (n_clusters : Z) (mt : metric).

  Let W : Type := (ivf F * S)%type.

  (** Reading a field of the index. *)
  Definition iread {A} (f : ivf F -> A) : prog W A := atomic (x <- get_ix ;; ret (f x)).

  (** Writing a field of the index. *)
  Definition iwrite (f : ivf F -> ivf F) : prog W unit := atomic (set_ix f).

  (** [self._vector_count = n]; the value was read before. *)
  Definition iput_count (n : Z) (x : ivf F) : ivf F :=
    MkIvf (i_centroids x) (i_clusters x) (i_ids x) (i_cache x) n (i_trained x) (i_init x).

  (** [len(self.vector_ids)]. *)
  Definition ilen (x : ivf F) : Z := Z.of_nat (length (i_ids x)).

  (** [self._vector_count = len(self.vector_ids)]; ivf.py:91: a read and a write. *)
  Definition irecount_steps : prog W unit :=
    n <~ iread ilen ;;
    iwrite (iput_count n).

  (** [self.vectors_cache[vector_id]]; ivf.py:99, 286: KeyError when it is not there. *)
  Definition icached (vector_id : pystr) : prog W (list F) :=
    atomic (x <- get_ix ;; match dget vector_id (i_cache x) with
                           | Some v => ret v
                           | None => raise EKey
                           end).

  (** The loop ivf.py:71-89 from row [i] on. *)
  Fixpoint ivf_rows_steps (fresh : nat -> pystr) (metadata : option (list (option Mt)))
      (i : nat) (rows : list (list F)) : prog W (list pystr) :=
    match rows with
    | [] => Return (Ok [])
    | vector :: rows' =>
        let vector_id := fresh i in
        atomic (on_sb (sc_store C vector_id vector (row_meta metadata i))) ;~
        iwrite (fun x => iset_ids (i_ids x ++ [vector_id]) x) ;~
        iwrite (fun x => iset_cache (dset vector_id vector (i_cache x)) x) ;~
        ids <~ ivf_rows_steps fresh metadata (1 + i) rows' ;;
        Return (Ok (vector_id :: ids))
    end.

  (** ivf.py:316-318 and 341-343: the test, the assignment of an empty list, and the append, which
      looks the list up again and raises KeyError when the key has gone.  Looking the list up and
      extending it are one step here; they are two in the source, which matters only if the list
      is replaced in between. *)
  Definition cluster_add_steps (c : nat) (vector_id : pystr) : prog W unit :=
    present <~ iread (fun x => dmem c (i_clusters x)) ;;
    (if present then Return (Ok tt)
     else iwrite (fun x => iset_clusters (dset c [] (i_clusters x)) x)) ;~
    atomic (x <- get_ix ;;
            match dget c (i_clusters x) with
            | None => raise EKey
            | Some l => set_ix (fun x => iset_clusters (dset c (l ++ [vector_id]) (i_clusters x)) x)
            end).

  (** [_add_to_cluster]; ivf.py:325-343: [_trained] and [centroids] are tested, then [centroids]
      is read again for the loop, which works on that array. *)
  Definition add_to_cluster_steps (vector_id : pystr) (vector : list F) : prog W unit :=
    trained <~ iread i_trained ;;
    if negb trained then Return (Ok tt)
    else
      tested <~ iread i_centroids ;;
      match tested with
      | None => Return (Ok tt)
      | Some _ =>
          centroids <~ iread i_centroids ;;
          match centroids with
          | None => Return (Raise EType)
          | Some cs =>
              match ivf_closest mt vector 0 cs None 0 with
              | Raise e => Return (Raise e)
              | Ok best_cluster => cluster_add_steps best_cluster vector_id
              end
          end
      end.

  (** The loop ivf.py:284-298 over the id list as it is at each round; [n] bounds the number of
      rounds (step programs are finite) and is not reached while it exceeds the length of the
      list. *)
  Fixpoint iload_steps (n : nat) (i : nat) : prog W (list (pystr * list F)) :=
    match n with
    | 0 => Return (Raise EAssert)
    | Datatypes.S n' =>
        next <~ iread (fun x => nth_error (i_ids x) i) ;;
        match next with
        | None => Return (Ok [])
        | Some vector_id =>
            cached <~ iread (fun x => dmem vector_id (i_cache x)) ;;
            if cached then
              vector <~ icached vector_id ;;
              rest <~ iload_steps n' (1 + i) ;;
              Return (Ok ((vector_id, vector) :: rest))
            else
              result <~ atomic (on_sb (sc_retrieve C vector_id)) ;;
              match result with
              | None => iload_steps n' (1 + i)
              | Some (vector, _) =>
                  iwrite (fun x => iset_cache (dset vector_id vector (i_cache x)) x) ;~
                  rest <~ iload_steps n' (1 + i) ;;
                  Return (Ok ((vector_id, vector) :: rest))
              end
        end
    end.

  (** The loop ivf.py:314-318 from position [i] on. *)
  Fixpoint build_steps (labels : list nat) (i : nat) (ids : list pystr) : prog W unit :=
    match ids with
    | [] => Return (Ok tt)
    | vector_id :: ids' =>
        match nth_error labels i with
        | None => Return (Raise EIndexRange)
        | Some cluster_id =>
            cluster_add_steps cluster_id vector_id ;~
            build_steps labels (1 + i) ids'
        end
    end.

  (** [_train_index]; ivf.py:274-323. *)
  Definition train_steps (rounds : nat) (kmeans : kmeans_fn F) : prog W unit :=
    n <~ iread ilen ;;
    if (n <? n_clusters)%Z then Return (Ok tt)
    else pwrap EIndex
           (loaded <~ iload_steps rounds 0 ;;
            if Nat.eqb (length loaded) 0 then Return (Ok tt)
            else match rbind (np_array (map snd loaded)) (kmeans n_clusters) with
                 | Raise e => Return (Raise e)
                 | Ok fitted =>
                     iwrite (iset_centroids (fst fitted)) ;~
                     iwrite (iset_clusters []) ;~
                     build_steps (snd fitted) 0 (map fst loaded) ;~
                     iwrite iset_trained
                 end).

  (** ivf.py:93-99: [and] does not look at [_trained] when there are too few vectors; [elif] reads
      it again. *)
  Definition after_insert_steps (rounds : nat) (kmeans : kmeans_fn F) (inserted_ids : list pystr) : prog W unit :=
    n <~ iread ilen ;;
    train <~ (if (n_clusters <=? n)%Z then trained <~ iread i_trained ;; Return (Ok (negb trained))
              else Return (Ok false)) ;;
    if train then train_steps rounds kmeans
    else
      trained <~ iread i_trained ;;
      if trained
      then pforM inserted_ids (fun vector_id =>
             vector <~ icached vector_id ;; add_to_cluster_steps vector_id vector)
      else Return (Ok tt).

  (** [insert]; ivf.py:58-104, for a matrix. *)
  Definition ivf_insert_steps (rounds : nat) (kmeans : kmeans_fn F) (fresh : nat -> pystr)
      (rows : list (list F)) (metadata : option (list (option Mt))) : prog W (list pystr) :=
    opened <~ iread i_init ;;
    if negb opened then Return (Raise EIndex)
    else pwrap EIndex
           (inserted_ids <~ ivf_rows_steps fresh metadata 0 rows ;;
            irecount_steps ;~
            after_insert_steps rounds kmeans inserted_ids ;~
            Return (Ok inserted_ids)).

  (** One insertion per thread. *)
  Record ijob : Type := MkIjob {
    ij_rounds : nat;
    ij_kmeans : kmeans_fn F;
    ij_fresh : nat -> pystr;
    ij_rows : list (list F);
    ij_meta : option (list (option Mt))
  }.

  (** Thread [t] runs the [t]-th insertion. *)
  Definition ipool (jobs : list ijob) (t : nat) : prog W (list pystr) :=
    match nth_error jobs t with
    | Some j => ivf_insert_steps (ij_rounds j) (ij_kmeans j) (ij_fresh j) (ij_rows j) (ij_meta j)
    | None => Return (Ok [])
    end.
End IvfSteps.
Arguments ijob : clear implicits.
