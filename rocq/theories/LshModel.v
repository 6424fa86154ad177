(** The LSH index.

    Source: /repo/src/valori/indices/lsh.py, and validate_vector of
    /repo/src/valori/utils/validation.py:12-66. *)

From Coq Require Import List Arith ZArith NArith Bool.
From Verif Require Import PyBase PyMore Payload StorageModel StorageRun Num SimilarityModel ClientModel.
Import ListNotations.
Open Scope py_scope.

(** The metric names of lsh.py:377-395; every other string is [LOther]. *)
Inductive lsh_metric : Type := LCosine | LEuclidean | LManhattan | LOther.

(** A hash code, lsh.py:345-347: a string of "0" and "1", here a list of booleans. *)
Notation code := (list bool) (only parsing).

(** Fields of [LSHIndex]; lsh.py:49-57 and [_initialized] of indices/base.py.  Table entries are
    integers, negative ones included (lsh.py:263 appends whatever [int(id)] gave).  [l_proj] holds
    [projections] and [offsets], which are always set together (lsh.py:302-311). *)
Record lsh (F Mt : Type) : Type := MkLsh {
  l_tables : list (dict (list bool) (list Z));
  l_proj : option (list (list F) * list F);
  l_dim : option nat;
  l_vectors : list (option (list F));
  l_metadata : list (option Mt);
  l_next : Z;
  l_init : bool
}.
Arguments MkLsh {F Mt} _ _ _ _ _ _ _.
Arguments l_tables {F Mt} _.
Arguments l_proj {F Mt} _.
Arguments l_dim {F Mt} _.
Arguments l_vectors {F Mt} _.
Arguments l_metadata {F Mt} _.
Arguments l_next {F Mt} _.
Arguments l_init {F Mt} _.

(** What a call may draw: the projection matrix and offsets for a dimension (lsh.py:302-311),
    and the order in which Python iterates over a set of ids (lsh.py:170). *)
Record lsh_orc (F : Type) : Type := MkLshOrc {
  o_proj : nat -> list (list F);
  o_offsets : list F;
  o_order : list Z -> list Z
}.
Arguments MkLshOrc {F} _ _ _.
Arguments o_proj {F} _ _.
Arguments o_offsets {F} _.
Arguments o_order {F} _ _.

(** One element of a search result: {"id", "distance", "metadata"} with an integer id;
    lsh.py:179-185. *)
Record lsh_hit (F Mt : Type) : Type := MkLhit { lh_id : Z; lh_score : F; lh_meta : option Mt }.
Arguments MkLhit {F Mt} _ _ _.
Arguments lh_id {F Mt} _.
Arguments lh_score {F Mt} _.
Arguments lh_meta {F Mt} _.

Section Lsh.
  Context {F Mt : Type} `{Num F} `{Payload (list F) Mt}.
  (** Configuration, lsh.py:32-37: number of tables, hash size, number of projections, metric and
      threshold; the constructor refuses sizes that are not positive (lsh.py:40-45).  [empty] is
      the dictionary [{}] of lsh.py:126. *)
  Context (n_tables hash_size n_proj : nat) (lmt : lsh_metric) (threshold : F) (empty : Mt).
  Notation lshi := (lsh F Mt).

  (** Single-field assignments. *)
  Definition lset_tables tb (x : lshi) : lshi :=
    MkLsh tb (l_proj x) (l_dim x) (l_vectors x) (l_metadata x) (l_next x) (l_init x).
  Definition lset_proj pr (x : lshi) : lshi :=
    MkLsh (l_tables x) pr (l_dim x) (l_vectors x) (l_metadata x) (l_next x) (l_init x).
  Definition lset_dim d (x : lshi) : lshi :=
    MkLsh (l_tables x) (l_proj x) d (l_vectors x) (l_metadata x) (l_next x) (l_init x).
  Definition lset_vectors vs (x : lshi) : lshi :=
    MkLsh (l_tables x) (l_proj x) (l_dim x) vs (l_metadata x) (l_next x) (l_init x).
  Definition lset_metadata ms (x : lshi) : lshi :=
    MkLsh (l_tables x) (l_proj x) (l_dim x) (l_vectors x) ms (l_next x) (l_init x).
  Definition lset_next n (x : lshi) : lshi :=
    MkLsh (l_tables x) (l_proj x) (l_dim x) (l_vectors x) (l_metadata x) n (l_init x).
  Definition lset_init b (x : lshi) : lshi :=
    MkLsh (l_tables x) (l_proj x) (l_dim x) (l_vectors x) (l_metadata x) (l_next x) b.

  (** [validate_vector(vector, dim, dim)]; validation.py:12-66 with [dtype] absent and zero
      vectors allowed. *)
  Definition validate_dim (dim : nat) (arr : ndarray F) : result unit :=
    match arr with
    | Vec v =>
        if Nat.eqb (length v) 0 then Raise EValidation
        else if Nat.ltb (length v) dim then Raise EValidation
        else if Nat.ltb dim (length v) then Raise EValidation
        else if negb (forallb nfinite v) then Raise EValidation
        else Ok tt
    | _ => Raise EValidation
    end.

  (** [x + y] with numpy broadcasting. *)
  Definition np_add (x y : list F) : result (list F) :=
    if Nat.eqb (length x) (length y) then Ok (zip_with nadd x y)
    else match x, y with
         | [a], _ => Ok (map (fun b => nadd a b) y)
         | _, [b] => Ok (map (fun a => nadd a b) x)
         | _, _ => Raise EValue
         end.

  (** Indices of the projections of one table; lsh.py:327-336. *)
  Definition lsh_window (table_idx : nat) : list nat :=
    let start_idx := (table_idx * hash_size) mod n_proj in
    let end_idx := start_idx + hash_size in
    if Nat.ltb n_proj end_idx
    then seq start_idx (n_proj - start_idx) ++ seq 0 (end_idx - n_proj)
    else seq start_idx (end_idx - start_idx).

  (** The code of one table; lsh.py:326-347.  [np.dot] of a matrix and a vector of another length
      raises ValueError; an index outside the matrix raises IndexError. *)
  Definition lsh_table_code (proj : list (list F)) (offsets : list F) (vector : list F)
      (table_idx : nat) : result (list bool) :=
    rbind (rmap (fun i => match nth_error proj i with Some r => Ok r | None => Raise EIndexRange end)
                (lsh_window table_idx)) (fun selected =>
    rbind (rmap (fun r => if Nat.eqb (length r) (length vector) then Ok (dot r vector)
                          else Raise EValue) selected) (fun dot_products =>
    rbind (np_add dot_products (firstn (length dot_products) offsets)) (fun shifted =>
    Ok (map (fun x => nleb nzero x) shifted)))).

  (** The codes of all tables; lsh.py:323-349. *)
  Definition lsh_codes (pr : list (list F) * list F) (vector : list F) : result (list (list bool)) :=
    rmap (lsh_table_code (fst pr) (snd pr) vector) (seq 0 n_tables).

  (** [_hash_vector]; lsh.py:313-349. *)
  Definition lsh_hash_vector (vector : list F) : M lshi (list (list bool)) :=
    x <- get ;;
    match l_proj x with
    | None => raise EAssert
    | Some pr => lift (lsh_codes pr vector)
    end.

  (** [_compute_distance]; lsh.py:377-395.  It computes a similarity. *)
  Definition lsh_similarity (x y : list F) : result F :=
    match lmt with
    | LCosine =>
        if negb (Nat.eqb (length x) (length y)) then Raise EValue
        else let norms := nmul (norm x) (norm y) in
             if neqb norms nzero then Ok nzero else Ok (ndiv (dot x y) norms)
    | LEuclidean => rbind (np_sub x y) (fun d => Ok (ndiv none (nadd none (norm d))))
    | LManhattan => rbind (np_sub x y) (fun d => Ok (ndiv none (nadd none (nsum (map nabs d)))))
    | LOther => Raise EIndex
    end.

  (** [self.hash_tables[t][code].append(id)] on a defaultdict; lsh.py:114, 263. *)
  Definition bucket_add (c : list bool) (id : Z) (tb : dict (list bool) (list Z)) :=
    dset c (match dget c tb with Some l => l | None => [] end ++ [id]) tb.

  (** lsh.py:209-214, 248-253: removal from the bucket if there is one, an absent id ignored. *)
  Definition bucket_remove (c : list bool) (id : Z) (tb : dict (list bool) (list Z)) :=
    match dget c tb with
    | Some l => dset c (remove_first id l) tb
    | None => tb
    end.

  (** Applying a change to table [t]. *)
  Definition on_table (t : nat) (f : dict (list bool) (list Z) -> dict (list bool) (list Z))
      : M lshi unit :=
    x <- get ;;
    match nth_error (l_tables x) t with
    | Some tb => modify (fun x => lset_tables (set_nth t (f tb) (l_tables x)) x)
    | None => raise EIndexRange
    end.

  (** The loops lsh.py:113-114 and 262-263. *)
  Definition lsh_put (codes : list (list bool)) (id : Z) : M lshi unit :=
    forM (enumerate codes) (fun '(t, c) => on_table t (bucket_add c id)).

  (** The loops lsh.py:209-214 and 248-253. *)
  Definition lsh_unput (codes : list (list bool)) (id : Z) : M lshi unit :=
    forM (enumerate codes) (fun '(t, c) => on_table t (bucket_remove c id)).

  (** [d.copy()] for a metadata object. *)
  Definition copy_meta (m : option Mt) : result Mt :=
    match m with
    | Some d => if copyable d then Ok d else Raise EAttr
    | None => Raise EAttr
    end.

  (** [[defaultdict(list) for _ in range(self.num_hash_tables)]]; lsh.py:62, 273. *)
  Definition lsh_tables0 : list (dict (list bool) (list Z)) := repeat [] n_tables.

  (** The constructor; lsh.py:29-57. *)
  Definition lsh_new : lshi := MkLsh [] None None [] [] 0 false.

  (** [initialize]; lsh.py:59-63. *)
  Definition lsh_initialize : M lshi unit :=
    modify (lset_tables lsh_tables0) ;;; modify (lset_init true).

  (** One iteration of lsh.py:100-116. *)
  Definition lsh_add_one (vector : list F) (m : option Mt) : M lshi Z :=
    x <- get ;;
    let vector_id := l_next x in
    modify (lset_next (vector_id + 1)) ;;;
    modify (fun x => lset_vectors (l_vectors x ++ [Some vector]) x) ;;;
    d <- lift (copy_meta m) ;;
    modify (fun x => lset_metadata (l_metadata x ++ [Some d]) x) ;;;
    hash_codes <- lsh_hash_vector vector ;;
    lsh_put hash_codes vector_id ;;;
    ret vector_id.

  (** Width of a matrix, [vectors.shape[1]]; a matrix without rows is taken to have width 0. *)
  Definition width (rows : list (list F)) : nat :=
    match rows with [] => 0 | r :: _ => length r end.

  (** [_generate_projections]; lsh.py:302-311. *)
  Definition lsh_generate (o : lsh_orc F) (dim : nat) : M lshi unit :=
    modify (lset_proj (Some (o_proj o dim, o_offsets o))).

  (** [add]; lsh.py:65-118.  A one-dimensional array has no [shape[1]] (IndexError); for other
      arrays only the zero-dimensional one is modelled ([len] raises TypeError). *)
  Definition lsh_add (o : lsh_orc F) (vectors : ndarray F) (metadata : list (option Mt))
      : M lshi (list Z) :=
    x <- get ;;
    if negb (l_init x) then raise EIndex
    else match vectors with
    | Nd => raise EType
    | Vec v => if negb (Nat.eqb (length v) (length metadata)) then raise EIndex
               else raise EIndexRange
    | Mat rows =>
        if negb (Nat.eqb (length rows) (length metadata)) then raise EIndex
        else
          match l_dim x with
          | None => modify (lset_dim (Some (width rows))) ;;; lsh_generate o (width rows)
          | Some _ => ret tt
          end ;;;
          x1 <- get ;;
          match l_dim x1 with
          | None => raise EAssert                                   (* not reached *)
          | Some dim =>
              if negb (Nat.eqb (width rows) dim) then raise EIndex
              else
                forM rows (fun v => lift (validate_dim dim (Vec v))) ;;;
                mapM (combine rows metadata) (fun '(v, m) => lsh_add_one v m)
          end
    end.

  (** [len(vectors)]. *)
  Definition py_len (vectors : ndarray F) : result nat :=
    match vectors with
    | Vec v => Ok (length v)
    | Mat rows => Ok (length rows)
    | Nd => Raise EType
    end.

  (** [insert]; lsh.py:121-128. *)
  Definition lsh_insert (o : lsh_orc F) (vectors : ndarray F)
      (metadata : option (list (option Mt))) : M lshi (list pystr) :=
    n <- lift (match metadata with None => py_len vectors | Some _ => Ok 0 end) ;;
    let metadata := match metadata with None => repeat (Some empty) n | Some l => l end in
    ids <- lsh_add o vectors metadata ;;
    ret (map (fun i => str_nat (Z.to_nat i)) ids).

  (** Ids put into a set, each once. *)
  Definition to_set (l : list Z) : list Z := nodup Z.eq_dec l.

  (** Ids of the query's own buckets; lsh.py:159-162. *)
  Definition lsh_exact (tables : list (dict (list bool) (list Z))) (codes : list (list bool))
      : list Z :=
    flat_map (fun '(tb, c) => match dget c tb with Some l => l | None => [] end)
             (combine tables codes).

  (** Positions where two strings differ, up to the shorter one; lsh.py:367-369. *)
  Definition hamming (c1 c2 : list bool) : nat :=
    length (filter (fun '(a, b) => negb (Bool.eqb a b)) (combine c1 c2)).

  (** [_relaxed_search]; lsh.py:351-375. *)
  Definition lsh_relaxed (tables : list (dict (list bool) (list Z))) (codes : list (list bool))
      : list Z :=
    flat_map (fun '(tb, c) =>
      flat_map (fun '(stored, l) => if Nat.leb (hamming c stored) 2 then l else []) tb)
      (combine tables codes).

  (** The candidate ids; lsh.py:159-166. *)
  Definition lsh_candidates tables codes : list Z :=
    match to_set (lsh_exact tables codes) with
    | [] => to_set (lsh_relaxed tables codes)
    | l => l
    end.

  (** One iteration of lsh.py:170-185: the result entry, if any. *)
  Definition lsh_consider (x : lshi) (q : list F) (candidate_id : Z)
      : result (option (lsh_hit F Mt)) :=
    if (candidate_id <? Z.of_nat (length (l_vectors x)))%Z
    then rbind (py_index (l_vectors x) candidate_id) (fun vector =>
         match vector with
         | None => Ok None
         | Some v =>
             rbind (lsh_similarity q v) (fun distance =>
             if nleb threshold distance
             then rbind (py_index (l_metadata x) candidate_id) (fun m =>
                  Ok (Some (MkLhit candidate_id distance m)))
             else Ok None)
         end)
    else Ok None.

  (** The entries present. *)
  Definition somes {A} (l : list (option A)) : list A :=
    flat_map (fun o => match o with Some a => [a] | None => [] end) l.

  (** [search] with the configured threshold; lsh.py:130-189. *)
  Definition lsh_search (o : lsh_orc F) (query : ndarray F) (k : Z) : M lshi (list (lsh_hit F Mt)) :=
    x <- get ;;
    if negb (l_init x) then raise EIndex
    else match l_dim x with
    | None => ret []
    | Some dim =>
        lift (validate_dim dim query) ;;;
        let q := match query with Vec q => q | _ => [] end in
        codes <- lsh_hash_vector q ;;
        entries <- lift (rmap (lsh_consider x q) (o_order o (lsh_candidates (l_tables x) codes))) ;;
        ret (slice_to k (sort (fun a b => nleb (lh_score b) (lh_score a)) (somes entries)))
    end.

  (** [x.field[i] = a] on the list fields. *)
  Definition set_vector (i : Z) (a : option (list F)) : M lshi unit :=
    x <- get ;; vs <- lift (py_set_index (l_vectors x) i a) ;; modify (lset_vectors vs).
  Definition set_meta (i : Z) (a : option Mt) : M lshi unit :=
    x <- get ;; ms <- lift (py_set_index (l_metadata x) i a) ;; modify (lset_metadata ms).

  (** One iteration of lsh.py:201-218. *)
  Definition lsh_remove_one (vector_id : Z) : M lshi unit :=
    x <- get ;;
    if (vector_id <? Z.of_nat (length (l_vectors x)))%Z
    then vector <- lift (py_index (l_vectors x) vector_id) ;;
         match vector with
         | None => ret tt
         | Some v =>
             hash_codes <- lsh_hash_vector v ;;
             lsh_unput hash_codes vector_id ;;;
             set_vector vector_id None ;;;
             set_meta vector_id None
         end
    else ret tt.

  (** [remove]; lsh.py:191-218. *)
  Definition lsh_remove (ids : list Z) : M lshi unit :=
    x <- get ;;
    if negb (l_init x) then raise EIndex else forM ids lsh_remove_one.

  (** The ids that parse as integers; lsh.py:223-228. *)
  Definition int_ids (ids : list pystr) : list Z := somes (map py_int ids).

  (** [delete]; lsh.py:220-232. *)
  Definition lsh_delete (ids : list pystr) : M lshi bool :=
    catch (lsh_remove (int_ids ids) ;;; ret true) (ret false).

  (** [update]; lsh.py:234-267. *)
  Definition lsh_update (id : pystr) (vector : list F) (metadata : option Mt) : M lshi bool :=
    x <- get ;;
    if negb (l_init x) then raise EIndex
    else
      catch
        (vector_id <- lift (match py_int id with Some i => Ok i | None => Raise EValue end) ;;
         if (Z.of_nat (length (l_vectors x)) <=? vector_id)%Z then ret false
         else
           old <- lift (py_index (l_vectors x) vector_id) ;;
           match old with
           | None => ret false
           | Some old_vector =>
               old_hashes <- lsh_hash_vector old_vector ;;
               lsh_unput old_hashes vector_id ;;;
               set_vector vector_id (Some vector) ;;;
               match metadata with
               | Some _ => d <- lift (copy_meta metadata) ;; set_meta vector_id (Some d)
               | None => ret tt
               end ;;;
               new_hashes <- lsh_hash_vector vector ;;
               lsh_put new_hashes vector_id ;;;
               ret true
           end)
        (ret false).

  (** [clear]; lsh.py:269-274. *)
  Definition lsh_clear : M lshi unit :=
    modify (lset_vectors []) ;;; modify (lset_metadata []) ;;;
    modify (lset_tables lsh_tables0) ;;; modify (lset_next 0).

  (** [close]; lsh.py:397-400. *)
  Definition lsh_close : M lshi unit := lsh_clear ;;; modify (lset_init false).

  (** [get_stats]["num_vectors"]; lsh.py:276-292. *)
  Definition lsh_count (x : lshi) : nat := length (somes (l_vectors x)).

  (** [get_stats]["max_bucket_size"]; lsh.py:282-296.  [bucket_sizes.extend(bucket)] collects the
      ids in the buckets, not the sizes of the buckets. *)
  Definition lsh_max_bucket_size (x : lshi) : Z :=
    let bucket_sizes := flat_map (fun tb => concat (dvals tb)) (l_tables x) in
    match bucket_sizes with
    | [] => 0
    | a :: l => fold_left Z.max l a
    end.

  (** The class as the client uses it: a storage object is passed in and ignored (lsh.py:59-63),
      the drawn uuids are not used, and the integer ids of results are shown as decimal strings
      (negative ones as the empty string). *)
  Definition on_lsh {S A} (m : M lshi A) : M (lshi * S) A :=
    zoom fst (fun t w => (t, snd w)) m.

  Definition lsh_class {S} : index_class lshi S F Mt (lsh_orc F) := {|
    ix_new := lsh_new;
    ix_init := fun _ => on_lsh lsh_initialize;
    ix_insert := fun o _ vectors metadata => on_lsh (lsh_insert o vectors metadata);
    ix_search := fun o q k =>
      on_lsh (hits <- lsh_search o q k ;;
              ret (map (fun h => MkHit (if (lh_id h <? 0)%Z then [] else str_nat (Z.to_nat (lh_id h)))
                                       (lh_score h) (lh_meta h)) hits));
    ix_delete := fun ids => on_lsh (lsh_delete ids);
    ix_update := fun _ id v m => on_lsh (lsh_update id v m);
    ix_count := fun x => Some (Z.of_nat (lsh_count x));
    ix_close := on_lsh lsh_close
  |}.
End Lsh.
