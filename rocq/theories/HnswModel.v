(** Model of /repo/src/valori/indices/hnsw.py: [HNSWIndex]. *)

From Coq Require Import List Arith ZArith NArith Bool.
From Verif Require Import PyBase Payload StorageModel StorageSpec StorageRun Num ClientModel.
Import ListNotations.
Open Scope py_scope.

(** One level of the graph: node id to list of neighbour ids; hnsw.py:36-38. *)
Notation graph := (dict pystr (list pystr)).

(** Fields of [HNSWIndex]; hnsw.py:27-41.  [storage_backend] is the second component of the method
    state; [initialize] sets it together with [_initialized], so the tests [if sb is None] never
    succeed.  [ef_construction] is never used. *)
Record hnsw (F : Type) : Type := MkHnsw {
  h_levels : list graph;
  h_vectors : dict pystr (list F);
  h_max : nat;
  h_count : Z;
  h_init : bool
}.
Arguments MkHnsw {F} _ _ _ _ _.
Arguments h_levels {F} _.
Arguments h_vectors {F} _.
Arguments h_max {F} _.
Arguments h_count {F} _.
Arguments h_init {F} _.

(** The random draws of one call: [r_coin i j] is the outcome of the j-th test
    [random.random() < 0.5] for the i-th vector put in the graph (hnsw.py:270), and
    [r_sample i l nodes n] the outcome of [random.sample(nodes, n)] at level [l] (hnsw.py:294). *)
Record hnsw_rand : Type := MkRand {
  r_coin : nat -> nat -> bool;
  r_sample : nat -> nat -> list pystr -> nat -> list pystr
}.

Section Hnsw.
  Context {F Mt S : Type} `{Num F}.
  (** Storage and the settings of hnsw.py:30-33. *)
  Context (C : storage_class S (list F) Mt) (m ef_search : Z) (mt : metric).

  Let W : Type := (hnsw F * S)%type.

  (** [HNSWIndex.__init__]; hnsw.py:27-41. *)
  Definition hnsw_new : hnsw F := MkHnsw [] [] 0 0 false.

  (** Field assignments. *)
  Definition hset_levels (l : list graph) (x : hnsw F) : hnsw F :=
    MkHnsw l (h_vectors x) (h_max x) (h_count x) (h_init x).
  Definition hset_vectors (d : dict pystr (list F)) (x : hnsw F) : hnsw F :=
    MkHnsw (h_levels x) d (h_max x) (h_count x) (h_init x).
  Definition hset_max (n : nat) (x : hnsw F) : hnsw F :=
    MkHnsw (h_levels x) (h_vectors x) n (h_count x) (h_init x).
  (** [self._vector_count = len(self.vectors)]; hnsw.py:264,308. *)
  Definition hset_count (x : hnsw F) : hnsw F :=
    MkHnsw (h_levels x) (h_vectors x) (h_max x) (Z.of_nat (length (h_vectors x))) (h_init x).
  Definition hset_init (x : hnsw F) : hnsw F :=
    MkHnsw (h_levels x) (h_vectors x) (h_max x) (h_count x) true.

  (** hnsw.py:269-271: [level] rises while the coin says so, at most to 10.  [fuel] is what is
      left until 10. *)
  Fixpoint draw_level (coin : nat -> bool) (level fuel : nat) : nat :=
    match fuel with
    | O => level
    | Datatypes.S fuel' => if coin level then draw_level coin (1 + level) fuel' else level
    end.

  (** hnsw.py:274-275: at least [n] levels. *)
  Definition pad_levels (n : nat) (ls : list graph) : list graph :=
    ls ++ repeat [] (n - length ls).

  (** hnsw.py:278-279 and 283-284. *)
  Definition add_node (id : pystr) (g : graph) : graph :=
    if dmem id g then g else dset id [] g.

  (** hnsw.py:278-284: the node is added to the first [n] levels. *)
  Fixpoint add_levels (id : pystr) (n : nat) (ls : list graph) : list graph :=
    match n, ls with
    | Datatypes.S n', g :: ls' => add_node id g :: add_levels id n' ls'
    | _, _ => ls
    end.

  (** The body of the loop hnsw.py:296-302.  A missing key raises KeyError (a change made before
      it would remain; [random.sample] picks existing nodes, so this does not happen). *)
  Definition link (id : pystr) (g : graph) (neighbor_id : pystr) : result graph :=
    if eqb neighbor_id id then Ok g
    else match dget neighbor_id g with
         | None => Raise EKey
         | Some ns =>
             let g := if memb id ns then g else dset neighbor_id (ns ++ [id]) g in
             match dget id g with
             | None => Raise EKey
             | Some ms => Ok (if memb neighbor_id ms then g else dset id (ms ++ [neighbor_id]) g)
             end
         end.

  (** The loop of hnsw.py:296-302. *)
  Fixpoint link_all (id : pystr) (g : graph) (neighbors : list pystr) : result graph :=
    match neighbors with
    | [] => Ok g
    | nb :: nbs => rbind (link id g nb) (fun g' => link_all id g' nbs)
    end.

  (** The body of the loop hnsw.py:289-302 for one level.  A negative sample size raises
      ValueError. *)
  Definition connect_level (id : pystr) (sample : list pystr -> nat -> list pystr) (g : graph)
      : result graph :=
    let existing_nodes := dkeys g in
    if Nat.eqb (length existing_nodes) 0 then Ok g
    else
      let num_connections := Z.min m (Z.of_nat (length existing_nodes)) in
      if (num_connections <? 0)%Z then Raise EValue
      else link_all id g (sample existing_nodes (Z.to_nat num_connections)).

  (** The loop of hnsw.py:289-302 over the first [n] levels, [l] being the number of the first.
      The only exception is the one for a negative [m], raised at level 0 before any link is
      made. *)
  Fixpoint connect_levels (id : pystr) (sample : nat -> list pystr -> nat -> list pystr)
      (l n : nat) (ls : list graph) : result (list graph) :=
    match n, ls with
    | Datatypes.S n', g :: ls' =>
        rbind (connect_level id (sample l) g) (fun g' =>
        rbind (connect_levels id sample (1 + l) n' ls') (fun ls'' => Ok (g' :: ls'')))
    | _, _ => Ok ls
    end.

  (** [_insert_vector_internal]; hnsw.py:261-302. *)
  Definition hnsw_add (rnd : hnsw_rand) (i : nat) (vector_id : pystr) (vector : list F)
      : M W unit :=
    set_ix (fun x => hset_count (hset_vectors (dset vector_id vector (h_vectors x)) x)) ;;;
    let level := draw_level (r_coin rnd i) 0 10 in
    set_ix (fun x => hset_levels (pad_levels (1 + level) (h_levels x)) x) ;;;
    set_ix (fun x => hset_levels (add_levels vector_id (Nat.min (1 + level) (length (h_levels x)))
                                             (h_levels x)) x) ;;;
    set_ix (fun x => hset_max (Nat.max (h_max x) level) x) ;;;
    x <- get_ix ;;
    ls <- lift (connect_levels vector_id (r_sample rnd i) 0
                               (Nat.min (1 + level) (length (h_levels x))) (h_levels x)) ;;
    set_ix (hset_levels ls).

  (** hnsw.py:314-316: the node is struck from the lists of its neighbours.  (The list walked is
      not the one changed, since no node is its own neighbour.) *)
  Fixpoint unlink (id : pystr) (g : graph) (neighbors : list pystr) : graph :=
    match neighbors with
    | [] => g
    | nb :: nbs =>
        unlink id (match dget nb g with
                   | Some ns => if memb id ns then dset nb (remove_first id ns) g else g
                   | None => g
                   end) nbs
    end.

  (** The body of the loop hnsw.py:311-318. *)
  Definition remove_node (id : pystr) (g : graph) : graph :=
    match dget id g with
    | None => g
    | Some neighbors => ddel id (unlink id g neighbors)
    end.

  (** [_remove_vector_internal]; hnsw.py:304-318. *)
  Definition hnsw_remove (id : pystr) (x : hnsw F) : hnsw F :=
    let x := if dmem id (h_vectors x)
             then hset_count (hset_vectors (ddel id (h_vectors x)) x) else x in
    hset_levels (map (remove_node id) (h_levels x)) x.

  (** The body of the loop hnsw.py:55-59, for the i-th listed id. *)
  Definition hnsw_load (rnd : hnsw_rand) (i : nat) (vector_id : pystr) : M W unit :=
    result <- on_sb (sc_retrieve C vector_id) ;;
    match result with
    | None => ret tt
    | Some (vector, _) => hnsw_add rnd i vector_id vector
    end.

  (** The loop of hnsw.py:55-59. *)
  Fixpoint hnsw_load_all (rnd : hnsw_rand) (i : nat) (ids : list pystr) : M W unit :=
    match ids with
    | [] => ret tt
    | vector_id :: ids' =>
        hnsw_load rnd i vector_id ;;;
        hnsw_load_all rnd (1 + i) ids'
    end.

  (** [HNSWIndex.initialize]; hnsw.py:43-61.  [vectors] and [max_level] are left as they are. *)
  Definition hnsw_initialize (rnd : hnsw_rand) : M W unit :=
    set_ix hset_init ;;;
    set_ix (hset_levels [[]]) ;;;
    wrap EIndex
      (existing_ids <- on_sb (sc_list C None) ;;
       hnsw_load_all rnd 0 existing_ids).

  (** The loop of hnsw.py:76-94, from row [i] on. *)
  Fixpoint hnsw_insert_rows (rnd : hnsw_rand) (fresh : nat -> pystr)
      (metadata : option (list (option Mt))) (i : nat) (rows : list (list F))
      : M W (list pystr) :=
    match rows with
    | [] => ret []
    | vector :: rows' =>
        let vector_id := fresh i in
        _ <- on_sb (sc_store C vector_id vector (row_meta metadata i)) ;;
        hnsw_add rnd i vector_id vector ;;;
        ids <- hnsw_insert_rows rnd fresh metadata (1 + i) rows' ;;
        ret (vector_id :: ids)
    end.

  (** [HNSWIndex.insert]; hnsw.py:63-99. *)
  Definition hnsw_insert (rnd : hnsw_rand) (fresh : nat -> pystr) (vectors : ndarray F)
      (metadata : option (list (option Mt))) : M W (list pystr) :=
    x <- get_ix ;;
    if negb (h_init x) then raise EIndex
    else match vectors with
         | Mat rows => wrap EIndex (hnsw_insert_rows rnd fresh metadata 0 rows)
         | _ => raise EIndex
         end.

  (** The inner loops hnsw.py:136-141 and 153-158. *)
  Fixpoint near (q : list F) (vectors : dict pystr (list F)) (neighbors : list pystr)
      : result (list (pystr * F)) :=
    match neighbors with
    | [] => Ok []
    | nb :: nbs =>
        match dget nb vectors with
        | None => near q vectors nbs
        | Some v =>
            rbind (pair_distance mt q v) (fun d =>
            rbind (near q vectors nbs) (fun rest => Ok ((nb, d) :: rest)))
        end
    end.

  (** The loops hnsw.py:133-141 and 150-158 over the candidates. *)
  Fixpoint expand (q : list F) (vectors : dict pystr (list F)) (g : graph)
      (candidates : list (pystr * F)) : result (list (pystr * F)) :=
    match candidates with
    | [] => Ok []
    | (node_id, _) :: cs =>
        rbind (match dget node_id g with
               | None => Ok []
               | Some neighbors => near q vectors neighbors
               end) (fun here =>
        rbind (expand q vectors g cs) (fun rest => Ok (here ++ rest)))
    end.

  (** Sorting by distance; hnsw.py:144,163. *)
  Definition by_distance (l : list (pystr * F)) : list (pystr * F) :=
    sort (fun a b => nleb (snd a) (snd b)) l.

  (** The loop hnsw.py:132-146, from level [l] down to 1. *)
  Fixpoint descend (q : list F) (x : hnsw F) (l : nat) (candidates : list (pystr * F))
      : result (list (pystr * F)) :=
    match l with
    | O => Ok candidates
    | Datatypes.S l' =>
        match nth_error (h_levels x) l with
        | None => Raise EIndexRange
        | Some g =>
            rbind (expand q (h_vectors x) g candidates) (fun new_candidates =>
            descend q x l' (slice_to ef_search (by_distance new_candidates)))
        end
    end.

  (** hnsw.py:120-129: the entry point, the first node of the top level. *)
  Definition entry_candidates (q : list F) (x : hnsw F) (current_level : Z) : result (list (pystr * F)) :=
    if (current_level <? 0)%Z then Ok []
    else match nth_error (h_levels x) (Z.to_nat current_level) with
         | None => Raise EIndexRange
         | Some [] => Ok []
         | Some ((entry_point, _) :: _) =>
             match dget entry_point (h_vectors x) with
             | None => Raise EKey
             | Some v => rbind (pair_distance mt q v) (fun d => Ok [(entry_point, d)])
             end
         end.

  (** hnsw.py:116-160: the candidates of a search.  After the descent the level is 0, unless it
      was negative. *)
  Definition candidates_of (q : list F) (x : hnsw F) : result (list (pystr * F)) :=
    let current_level := Z.min (Z.of_nat (h_max x)) (Z.of_nat (length (h_levels x)) - 1) in
    rbind (entry_candidates q x current_level) (fun c0 =>
    rbind (descend q x (Z.to_nat current_level) c0) (fun c1 =>
    if (0 <=? current_level)%Z && negb (Nat.eqb (length c1) 0)
    then match h_levels x with
         | [] => Raise EIndexRange
         | g :: _ => rbind (expand q (h_vectors x) g c1) (fun final => Ok (c1 ++ final))
         end
    else Ok c1)).

  (** One iteration of hnsw.py:171-179; unpacking [None] raises TypeError. *)
  Definition hnsw_result (c : pystr * F) : M W (hit F Mt) :=
    result <- on_sb (sc_retrieve C (fst c)) ;;
    match result with
    | None => raise EType
    | Some (_, metadata) => ret (MkHit (fst c) (snd c) metadata)
    end.

  (** [HNSWIndex.search]; hnsw.py:101-184. *)
  Definition hnsw_search (query : ndarray F) (k : Z) : M W (list (hit F Mt)) :=
    x <- get_ix ;;
    if negb (h_init x) then raise EIndex
    else match query with
         | Vec q =>
             wrap EIndex
               (if Nat.eqb (length (h_vectors x)) 0 then ret []
                else
                  let k := Z.min k (Z.of_nat (length (h_vectors x))) in
                  candidates <- lift (candidates_of q x) ;;
                  mapM (slice_to k (by_distance candidates)) hnsw_result)
         | _ => raise EIndex
         end.

  (** The loop of hnsw.py:198-204. *)
  Fixpoint hnsw_delete_ids (ids : list pystr) (success : bool) : M W bool :=
    match ids with
    | [] => ret success
    | vector_id :: ids' =>
        deleted <- on_sb (sc_delete C vector_id) ;;
        set_ix (hnsw_remove vector_id) ;;;
        hnsw_delete_ids ids' (if deleted then success else false)
    end.

  (** [HNSWIndex.delete]; hnsw.py:186-209. *)
  Definition hnsw_delete (ids : list pystr) : M W bool :=
    x <- get_ix ;;
    if negb (h_init x) then raise EIndex
    else wrap EIndex (hnsw_delete_ids ids true).

  (** [HNSWIndex.update]; hnsw.py:211-234. *)
  Definition hnsw_update (id : pystr) (vector : list F) (metadata : option Mt) : M W bool :=
    x <- get_ix ;;
    if negb (h_init x) then raise EIndex
    else wrap EIndex
           (updated <- on_sb (sc_update C id vector metadata) ;;
            if negb updated then ret false
            else
              set_ix (fun x => if dmem id (h_vectors x)
                               then hset_vectors (dset id vector (h_vectors x)) x else x) ;;;
              ret true).

  (** [HNSWIndex.get_stats]["vector_count"]; hnsw.py:236-251. *)
  Definition hnsw_count (x : hnsw F) : option Z :=
    if negb (h_init x) then None else Some (h_count x).

  (** [HNSWIndex.close]; hnsw.py:253-259. *)
  Definition hnsw_close : M W unit := set_ix (fun _ => MkHnsw [] [] 0 0 false).

  (** The class; the oracle of a call is its random draws. *)
  Definition hnsw_class : index_class (hnsw F) S F Mt hnsw_rand := {|
    ix_new := hnsw_new;
    ix_init := hnsw_initialize;
    ix_insert := hnsw_insert;
    ix_search := fun _ => hnsw_search;
    ix_delete := hnsw_delete;
    ix_update := fun _ => hnsw_update;
    ix_count := hnsw_count;
    ix_close := hnsw_close
  |}.
End Hnsw.
