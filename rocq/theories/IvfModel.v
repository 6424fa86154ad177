(** Model of /repo/src/valori/indices/ivf.py: [IVFIndex]. *)

From Coq Require Import List Arith ZArith NArith Bool.
From Verif Require Import PyBase Payload StorageModel StorageSpec StorageRun Num ClientModel.
Import ListNotations.
Open Scope py_scope.

(** Fields of [IVFIndex]; ivf.py:25-38.  [storage_backend] is the second component of the method
    state; [initialize] sets it together with [_initialized], so the tests [if sb is None] never
    succeed. *)
Record ivf (F : Type) : Type := MkIvf {
  i_centroids : option (list (list F));
  i_clusters : dict nat (list pystr);
  i_ids : list pystr;
  i_cache : dict pystr (list F);
  i_count : Z;
  i_trained : bool;
  i_init : bool
}.
Arguments MkIvf {F} _ _ _ _ _ _ _.
Arguments i_centroids {F} _.
Arguments i_clusters {F} _.
Arguments i_ids {F} _.
Arguments i_cache {F} _.
Arguments i_count {F} _.
Arguments i_trained {F} _.
Arguments i_init {F} _.

(** The outcome of [KMeans(n_clusters=n, ...).fit_predict(data)]: cluster centres and one label
    per row (or an exception); ivf.py:305-310.  Everything the clustering library decides is in
    this function, which is an argument of every call. *)
Definition kmeans_fn (F : Type) : Type :=
  Z -> list (list F) -> result (list (list F) * list nat).

Section Ivf.
  Context {F Mt S : Type} `{Num F}.
  (** Storage and the three settings of ivf.py:28-30. *)
  Context (C : storage_class S (list F) Mt) (n_clusters n_probes : Z) (mt : metric).

  Let W : Type := (ivf F * S)%type.

  (** [IVFIndex.__init__]; ivf.py:25-38. *)
  Definition ivf_new : ivf F := MkIvf None [] [] [] 0 false false.

  (** Field assignments. *)
  Definition iset_centroids (c : list (list F)) (x : ivf F) : ivf F :=
    MkIvf (Some c) (i_clusters x) (i_ids x) (i_cache x) (i_count x) (i_trained x) (i_init x).
  Definition iset_clusters (c : dict nat (list pystr)) (x : ivf F) : ivf F :=
    MkIvf (i_centroids x) c (i_ids x) (i_cache x) (i_count x) (i_trained x) (i_init x).
  Definition iset_ids (l : list pystr) (x : ivf F) : ivf F :=
    MkIvf (i_centroids x) (i_clusters x) l (i_cache x) (i_count x) (i_trained x) (i_init x).
  Definition iset_cache (d : dict pystr (list F)) (x : ivf F) : ivf F :=
    MkIvf (i_centroids x) (i_clusters x) (i_ids x) d (i_count x) (i_trained x) (i_init x).
  (** [self._vector_count = len(self.vector_ids)]; ivf.py:50,91,209. *)
  Definition iset_count (x : ivf F) : ivf F :=
    MkIvf (i_centroids x) (i_clusters x) (i_ids x) (i_cache x) (Z.of_nat (length (i_ids x)))
          (i_trained x) (i_init x).
  Definition iset_trained (x : ivf F) : ivf F :=
    MkIvf (i_centroids x) (i_clusters x) (i_ids x) (i_cache x) (i_count x) true (i_init x).
  Definition iset_init (x : ivf F) : ivf F :=
    MkIvf (i_centroids x) (i_clusters x) (i_ids x) (i_cache x) (i_count x) (i_trained x) true.

  (** A vector from the cache, or from storage into the cache, or nothing; the block occurring at
      ivf.py:139-151, 285-295 and 364-371. *)
  Definition ivf_fetch (vector_id : pystr) : M W (option (list F)) :=
    x <- get_ix ;;
    match dget vector_id (i_cache x) with
    | Some vector => ret (Some vector)
    | None =>
        result <- on_sb (sc_retrieve C vector_id) ;;
        match result with
        | None => ret None
        | Some (vector, _) =>
            set_ix (fun x => iset_cache (dset vector_id vector (i_cache x)) x) ;;;
            ret (Some vector)
        end
    end.

  (** The loop of ivf.py:284-298. *)
  Fixpoint ivf_load (ids : list pystr) : M W (list (pystr * list F)) :=
    match ids with
    | [] => ret []
    | vector_id :: ids' =>
        v <- ivf_fetch vector_id ;;
        rest <- ivf_load ids' ;;
        match v with
        | None => ret rest
        | Some vector => ret ((vector_id, vector) :: rest)
        end
    end.

  (** [clusters[c].append(id)], creating the list when missing; ivf.py:316-318 and 341-343. *)
  Definition cluster_add (c : nat) (vector_id : pystr) (cl : dict nat (list pystr))
      : dict nat (list pystr) :=
    match dget c cl with
    | None => dset c [vector_id] cl
    | Some l => dset c (l ++ [vector_id]) cl
    end.

  (** The loop of ivf.py:314-318, from position [i] on; [cluster_labels[i]] out of range
      raises. *)
  Fixpoint ivf_build (labels : list nat) (i : nat) (ids : list pystr) : M W unit :=
    match ids with
    | [] => ret tt
    | vector_id :: ids' =>
        match nth_error labels i with
        | None => raise EIndexRange
        | Some cluster_id =>
            set_ix (fun x => iset_clusters (cluster_add cluster_id vector_id (i_clusters x)) x) ;;;
            ivf_build labels (1 + i) ids'
        end
    end.

  (** [_train_index]; ivf.py:274-323. *)
  Definition ivf_train (kmeans : kmeans_fn F) : M W unit :=
    x <- get_ix ;;
    if (Z.of_nat (length (i_ids x)) <? n_clusters)%Z then ret tt
    else wrap EIndex
           (loaded <- ivf_load (i_ids x) ;;
            if Nat.eqb (length loaded) 0 then ret tt
            else
              vectors_array <- lift (np_array (map snd loaded)) ;;
              fitted <- lift (kmeans n_clusters vectors_array) ;;
              set_ix (iset_centroids (fst fitted)) ;;;
              set_ix (iset_clusters []) ;;;
              ivf_build (snd fitted) 0 (map fst loaded) ;;;
              set_ix iset_trained).

  (** The loop of ivf.py:334-338: closest centroid, the first among equals, 0 if no distance is
      below infinity.  [best] is the smallest distance so far, none standing for float("inf"). *)
  Fixpoint ivf_closest (vector : list F) (i : nat) (cs : list (list F))
      (best : option F) (best_cluster : nat) : result nat :=
    match cs with
    | [] => Ok best_cluster
    | centroid :: cs' =>
        rbind (pair_distance mt vector centroid) (fun distance =>
        if match best with None => nfinite distance | Some b => nltb distance b end
        then ivf_closest vector (1 + i) cs' (Some distance) i
        else ivf_closest vector (1 + i) cs' best best_cluster)
    end.

  (** [_add_to_cluster]; ivf.py:325-343. *)
  Definition ivf_add_to_cluster (vector_id : pystr) (vector : list F) : M W unit :=
    x <- get_ix ;;
    match i_trained x, i_centroids x with
    | true, Some cs =>
        best_cluster <- lift (ivf_closest vector 0 cs None 0) ;;
        set_ix (fun x => iset_clusters (cluster_add best_cluster vector_id (i_clusters x)) x)
    | _, _ => ret tt
    end.

  (** ivf.py:350-354: removal from the first cluster that contains the id. *)
  Fixpoint remove_from_first (vector_id : pystr) (cl : dict nat (list pystr))
      : dict nat (list pystr) :=
    match cl with
    | [] => []
    | (c, l) :: cl' =>
        if memb vector_id l then (c, remove_first vector_id l) :: cl'
        else (c, l) :: remove_from_first vector_id cl'
    end.

  (** ivf.py:205-207: removal from every cluster that contains the id (first occurrence in
      each). *)
  Definition remove_from_all (vector_id : pystr) (cl : dict nat (list pystr))
      : dict nat (list pystr) :=
    map (fun '(c, l) => (c, if memb vector_id l then remove_first vector_id l else l)) cl.

  (** [_update_cluster_assignment]; ivf.py:345-357. *)
  Definition ivf_reassign (vector_id : pystr) (vector : list F) : M W unit :=
    x <- get_ix ;;
    match i_trained x, i_centroids x with
    | true, Some _ =>
        set_ix (fun x => iset_clusters (remove_from_first vector_id (i_clusters x)) x) ;;;
        ivf_add_to_cluster vector_id vector
    | _, _ => ret tt
    end.

  (** [IVFIndex.initialize]; ivf.py:40-56.  Cache, clusters and [_trained] are left as they
      are. *)
  Definition ivf_initialize (kmeans : kmeans_fn F) : M W unit :=
    set_ix iset_init ;;;
    wrap EIndex
      (existing_ids <- on_sb (sc_list C None) ;;
       set_ix (iset_ids existing_ids) ;;;
       set_ix iset_count ;;;
       x <- get_ix ;;
       if (n_clusters <=? Z.of_nat (length (i_ids x)))%Z then ivf_train kmeans else ret tt).

  (** The loop of ivf.py:71-89, from row [i] on. *)
  Fixpoint ivf_insert_rows (fresh : nat -> pystr) (metadata : option (list (option Mt)))
      (i : nat) (rows : list (list F)) : M W (list pystr) :=
    match rows with
    | [] => ret []
    | vector :: rows' =>
        let vector_id := fresh i in
        _ <- on_sb (sc_store C vector_id vector (row_meta metadata i)) ;;
        set_ix (fun x => iset_ids (i_ids x ++ [vector_id]) x) ;;;
        set_ix (fun x => iset_cache (dset vector_id vector (i_cache x)) x) ;;;
        ids <- ivf_insert_rows fresh metadata (1 + i) rows' ;;
        ret (vector_id :: ids)
    end.

  (** The body of the loop ivf.py:98-99; a missing cache entry raises KeyError. *)
  Definition ivf_add_cached (vector_id : pystr) : M W unit :=
    x <- get_ix ;;
    match dget vector_id (i_cache x) with
    | None => raise EKey
    | Some vector => ivf_add_to_cluster vector_id vector
    end.

  (** ivf.py:93-99: train, or add the new ids to clusters. *)
  Definition ivf_after_insert (kmeans : kmeans_fn F) (inserted_ids : list pystr) : M W unit :=
    x <- get_ix ;;
    if (n_clusters <=? Z.of_nat (length (i_ids x)))%Z && negb (i_trained x)
    then ivf_train kmeans
    else if i_trained x then forM inserted_ids ivf_add_cached
    else ret tt.

  (** [IVFIndex.insert]; ivf.py:58-104. *)
  Definition ivf_insert (kmeans : kmeans_fn F) (fresh : nat -> pystr) (vectors : ndarray F)
      (metadata : option (list (option Mt))) : M W (list pystr) :=
    x <- get_ix ;;
    if negb (i_init x) then raise EIndex
    else match vectors with
         | Mat rows =>
             wrap EIndex
               (inserted_ids <- ivf_insert_rows fresh metadata 0 rows ;;
                set_ix iset_count ;;;
                ivf_after_insert kmeans inserted_ids ;;;
                ret inserted_ids)
         | _ => raise EIndex
         end.

  (** The candidate loops ivf.py:135-154 (over the ids of the probed clusters, one cluster after
      the other) and 363-374 (over all ids). *)
  Fixpoint ivf_candidates (q : list F) (ids : list pystr) : M W (list (pystr * F)) :=
    match ids with
    | [] => ret []
    | vector_id :: ids' =>
        v <- ivf_fetch vector_id ;;
        match v with
        | None => ivf_candidates q ids'
        | Some vector =>
            distance <- lift (pair_distance mt q vector) ;;
            rest <- ivf_candidates q ids' ;;
            ret ((vector_id, distance) :: rest)
        end
    end.

  (** One iteration of ivf.py:165-173 and 381-392; unpacking [None] raises TypeError. *)
  Definition ivf_result (c : pystr * F) : M W (hit F Mt) :=
    result <- on_sb (sc_retrieve C (fst c)) ;;
    match result with
    | None => raise EType
    | Some (_, metadata) => ret (MkHit (fst c) (snd c) metadata)
    end.

  (** Sort by distance, cut, attach metadata; ivf.py:156-175 and 376-394. *)
  Definition ivf_answer (candidates : list (pystr * F)) (k : Z) : M W (list (hit F Mt)) :=
    mapM (slice_to k (sort (fun a b => nleb (snd a) (snd b)) candidates)) ivf_result.

  (** ivf.py:122-132: the numbers of the clusters to probe. *)
  Definition ivf_probes (centroid_distances : list F) : list nat :=
    map fst (slice_to n_probes
               (sort (fun a b => nleb (snd a) (snd b)) (enumerate centroid_distances))).

  (** The ids of the clusters probed, in probing order; ivf.py:135-138.  The nested loop of the
      source is flattened: its body changes the cache only. *)
  Definition probed_ids (cl : dict nat (list pystr)) (probes : list nat) : list pystr :=
    flat_map (fun c => match dget c cl with Some l => l | None => [] end) probes.

  (** [IVFIndex.search] (ivf.py:106-178) with [_brute_force_search] (ivf.py:359-394). *)
  Definition ivf_search (query : ndarray F) (k : Z) : M W (list (hit F Mt)) :=
    x <- get_ix ;;
    if negb (i_init x) then raise EIndex
    else match query with
         | Vec q =>
             wrap EIndex
               (if Nat.eqb (length (i_ids x)) 0 then ret []
                else if negb (i_trained x) then
                  candidates <- ivf_candidates q (i_ids x) ;;
                  ivf_answer candidates k
                else match i_centroids x with
                     | None => raise EType
                     | Some cs =>
                         centroid_distances <- lift (pair_distances mt q cs) ;;
                         candidates <- ivf_candidates q
                           (probed_ids (i_clusters x) (ivf_probes centroid_distances)) ;;
                         ivf_answer candidates k
                     end)
         | _ => raise EIndex
         end.

  (** The loop of ivf.py:188-207. *)
  Fixpoint ivf_delete_ids (ids : list pystr) (success : bool) : M W bool :=
    match ids with
    | [] => ret success
    | vector_id :: ids' =>
        deleted <- on_sb (sc_delete C vector_id) ;;
        set_ix (fun x => if memb vector_id (i_ids x)
                         then iset_ids (remove_first vector_id (i_ids x)) x else x) ;;;
        set_ix (fun x => iset_cache (ddel vector_id (i_cache x)) x) ;;;
        set_ix (fun x => iset_clusters (remove_from_all vector_id (i_clusters x)) x) ;;;
        ivf_delete_ids ids' (if deleted then success else false)
    end.

  (** [IVFIndex.delete]; ivf.py:180-213. *)
  Definition ivf_delete (ids : list pystr) : M W bool :=
    x <- get_ix ;;
    if negb (i_init x) then raise EIndex
    else wrap EIndex
           (success <- ivf_delete_ids ids true ;;
            set_ix iset_count ;;;
            ret success).

  (** [IVFIndex.update]; ivf.py:215-241. *)
  Definition ivf_update (id : pystr) (vector : list F) (metadata : option Mt) : M W bool :=
    x <- get_ix ;;
    if negb (i_init x) then raise EIndex
    else wrap EIndex
           (updated <- on_sb (sc_update C id vector metadata) ;;
            if negb updated then ret false
            else
              set_ix (fun x => iset_cache (dset id vector (i_cache x)) x) ;;;
              x <- get_ix ;;
              (if i_trained x then ivf_reassign id vector else ret tt) ;;;
              ret true).

  (** [IVFIndex.get_stats]["vector_count"]; ivf.py:243-262. *)
  Definition ivf_count (x : ivf F) : option Z :=
    if negb (i_init x) then None else Some (i_count x).

  (** [IVFIndex.close]; ivf.py:264-272. *)
  Definition ivf_close : M W unit := set_ix (fun _ => MkIvf None [] [] [] 0 false false).

  (** The class; the oracle of a call is its k-means. *)
  Definition ivf_class : index_class (ivf F) S F Mt (kmeans_fn F) := {|
    ix_new := ivf_new;
    ix_init := ivf_initialize;
    ix_insert := ivf_insert;
    ix_search := fun _ => ivf_search;
    ix_delete := ivf_delete;
    ix_update := fun _ => ivf_update;
    ix_count := ivf_count;
    ix_close := ivf_close
  |}.
End Ivf.
