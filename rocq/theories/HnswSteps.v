(** [HNSWIndex.insert] cut into the statements between which another thread can come in.  The class
    has no lock (hnsw.py:27-41); the backend's own lock makes each storage call one step (memory.py,
    hybrid.py; for the memory backend this is C13). *)

From Coq Require Import List Arith ZArith NArith Bool.
From Verif Require Import PyBase PyMore Payload StorageModel StorageSpec StorageRun Num ClientModel
  HnswModel StepModel LshSteps.
Import ListNotations.
Open Scope py_scope.

Section HnswSteps.
  Context {F Mt S : Type} `{Num F}.
  Context (C : storage_class S (list F) Mt) (m : Z).

  Let W : Type := (hnsw F * S)%type.

  (** Reading a field of the index; the fields are those of hnsw.py:35-41. *)
  Definition hread {A} (f : hnsw F -> A) : prog W A := atomic (x <- get_ix ;; ret (f x)).

  (** Writing a field of the index; the fields are those of hnsw.py:35-41. *)
  Definition hwrite (f : hnsw F -> hnsw F) : prog W unit := atomic (set_ix f).

  (** [self._vector_count = n]; the value was read before. hnsw.py:264. *)
  Definition hput_count (n : Z) (x : hnsw F) : hnsw F :=
    MkHnsw (h_levels x) (h_vectors x) (h_max x) n (h_init x).

  (** [self._vector_count = len(self.vectors)]; hnsw.py:264: a read and a write. *)
  Definition hrecount_steps : prog W unit :=
    n <~ hread (fun x => Z.of_nat (length (h_vectors x))) ;;
    hwrite (hput_count n).

  (** [self.levels[l]] for reading; hnsw.py:278, 283, 290, 299, 301. *)
  Definition hlevel (l : nat) : prog W graph :=
    atomic (x <- get_ix ;; match nth_error (h_levels x) l with
                           | Some g => ret g
                           | None => raise EIndexRange
                           end).

  (** An assignment into [self.levels[l]]; hnsw.py:279, 284, 300, 302. *)
  Definition hlevel_put (l : nat) (f : graph -> result graph) : prog W unit :=
    atomic (x <- get_ix ;;
            match nth_error (h_levels x) l with
            | None => raise EIndexRange
            | Some g => g' <- lift (f g) ;; set_ix (hset_levels (set_nth l g' (h_levels x)))
            end).

  (** The loop hnsw.py:274-275.  Each round that does not end it makes the list longer, so at most
      [level + 2] rounds are made. *)
  Fixpoint pad_steps (rounds level : nat) : prog W unit :=
    match rounds with
    | 0 => Return (Ok tt)
    | Datatypes.S rounds' =>
        n <~ hread (fun x => length (h_levels x)) ;;
        if (n <=? level)%nat
        then hwrite (fun x => hset_levels (h_levels x ++ [[]]) x) ;~ pad_steps rounds' level
        else Return (Ok tt)
    end.

  (** hnsw.py:278-279 and 283-284: the test and the assignment. *)
  Definition add_node_steps (id : pystr) (l : nat) : prog W unit :=
    g <~ hlevel l ;;
    if dmem id g then Return (Ok tt)
    else hlevel_put l (fun g => Ok (dset id [] g)).

  (** hnsw.py:299-300 and 301-302: the test and the append, each of which looks the list up.
      Looking the list up and extending it are one step here; they are two in the source, which
      matters only if the list is replaced in between. *)
  Definition half_link_steps (l : nat) (a b : pystr) : prog W unit :=
    ns <~ atomic (x <- get_ix ;;
                  match nth_error (h_levels x) l with
                  | None => raise EIndexRange
                  | Some g => match dget a g with Some ns => ret ns | None => raise EKey end
                  end) ;;
    if memb b ns then Return (Ok tt)
    else hlevel_put l (fun g => match dget a g with
                                | Some ns => Ok (dset a (ns ++ [b]) g)
                                | None => Raise EKey
                                end).

  (** The body of the loop hnsw.py:296-302. *)
  Definition link_steps (id : pystr) (l : nat) (neighbor_id : pystr) : prog W unit :=
    if eqb neighbor_id id then Return (Ok tt)
    else half_link_steps l neighbor_id id ;~ half_link_steps l id neighbor_id.

  (** The body of the loop hnsw.py:289-302: [list(self.levels[l].keys())] is one step. *)
  Definition connect_level_steps (id : pystr) (sample : list pystr -> nat -> list pystr) (l : nat) : prog W unit :=
    g <~ hlevel l ;;
    let existing_nodes := dkeys g in
    if Nat.eqb (length existing_nodes) 0 then Return (Ok tt)
    else
      let num_connections := Z.min m (Z.of_nat (length existing_nodes)) in
      if (num_connections <? 0)%Z then Return (Raise EValue)
      else pforM (sample existing_nodes (Z.to_nat num_connections)) (link_steps id l).

  (** [_insert_vector_internal]; hnsw.py:261-302. *)
  Definition hnsw_add_steps (rnd : hnsw_rand) (i : nat) (vector_id : pystr) (vector : list F) : prog W unit :=
    hwrite (fun x => hset_vectors (dset vector_id vector (h_vectors x)) x) ;~
    hrecount_steps ;~
    let level := draw_level (r_coin rnd i) 0 10 in
    pad_steps (2 + level) level ;~
    add_node_steps vector_id 0 ;~
    n <~ hread (fun x => length (h_levels x)) ;;
    pforM (seq 1 (Nat.min (1 + level) n - 1)) (add_node_steps vector_id) ;~
    top <~ hread h_max ;;
    hwrite (hset_max (Nat.max top level)) ;~
    n' <~ hread (fun x => length (h_levels x)) ;;
    pforM (seq 0 (Nat.min (1 + level) n')) (fun l => connect_level_steps vector_id (r_sample rnd i l) l).

  (** The loop hnsw.py:76-94 from row [i] on. *)
  Fixpoint hnsw_rows_steps (rnd : hnsw_rand) (fresh : nat -> pystr)
      (metadata : option (list (option Mt))) (i : nat) (rows : list (list F))
      : prog W (list pystr) :=
    match rows with
    | [] => Return (Ok [])
    | vector :: rows' =>
        let vector_id := fresh i in
        atomic (on_sb (sc_store C vector_id vector (row_meta metadata i))) ;~
        hnsw_add_steps rnd i vector_id vector ;~
        ids <~ hnsw_rows_steps rnd fresh metadata (1 + i) rows' ;;
        Return (Ok (vector_id :: ids))
    end.

  (** [insert]; hnsw.py:63-99, for a matrix. *)
  Definition hnsw_insert_steps (rnd : hnsw_rand) (fresh : nat -> pystr)
      (rows : list (list F)) (metadata : option (list (option Mt))) : prog W (list pystr) :=
    opened <~ hread h_init ;;
    if negb opened then Return (Raise EIndex)
    else pwrap EIndex (hnsw_rows_steps rnd fresh metadata 0 rows).

  (** One insertion per thread: its random draws, ids, rows and metadata; hnsw.py:63-99. *)
  Record hjob : Type := MkHjob {
    hj_rand : hnsw_rand;
    hj_fresh : nat -> pystr;
    hj_rows : list (list F);
    hj_meta : option (list (option Mt))
  }.

  (** Thread [t] runs the [t]-th insertion; hnsw.py:63-99. *)
  Definition hpool (jobs : list hjob) (t : nat) : prog W (list pystr) :=
    match nth_error jobs t with
    | Some j => hnsw_insert_steps (hj_rand j) (hj_fresh j) (hj_rows j) (hj_meta j)
    | None => Return (Ok [])
    end.
End HnswSteps.
Arguments hjob : clear implicits.
