(** Model of /repo/src/valori/storage: [MemoryStorage], [DiskStorage], [HybridStorage].

    Vectors and metadata are opaque values here: the backends copy, write and read them but
    never look inside.  [copy()] on arrays and dictionaries is the identity on values; aliasing
    is treated separately in [AliasModel.v].  Locks are not needed in a sequential model; see
    [ConcModel.v]. *)

From Coq Require Import List Arith ZArith NArith Lia Bool.
From Coq Require String.
Import (notations) Coq.Strings.String.
From Verif Require Import PyBase Payload.
Import ListNotations.
Open Scope py_scope.

(** What [get_stats()] reports, reduced to the fields checked here: memory.py:153-165 has
    count and bytes, disk.py:187-214 has the count (the disk usage is the file system's
    business), hybrid.py:158-172 nests both. [None] is the {"status": "not_initialized"}
    answer. *)
Record mem_stats : Type := { ms_count : Z; ms_bytes : N }.

Section Storage.
  Context {V Mt : Type} `{Payload V Mt}.

  (** ** MemoryStorage *)

  (** Fields of [MemoryStorage]; memory.py:22-29. *)
  Record mem : Type := MkMem {
    m_vectors : dict pystr V;
    m_metadata : dict pystr Mt;
    m_count : Z;
    m_usage : N;
    m_init : bool
  }.

  (** [MemoryStorage.__init__]; memory.py:22-29, base.py:19-22. *)
  Definition mem_new : mem := MkMem [] [] 0 0 false.

  (** The two generator sums of memory.py:62-66 (repeated at 98-103 and 132-136). *)
  Definition mem_bytes (s : mem) : N :=
    (fold_right (fun v a => nbytes v + a) 0 (dvals (m_vectors s)) +
     fold_right (fun m a => strbytes m + a) 0 (dvals (m_metadata s)))%N.

  (** [MemoryStorage.initialize]; memory.py:31-38. *)
  Definition mem_initialize : M mem unit :=
    modify (fun _ => MkMem [] [] 0 0 true).

  (** memory.py:54-58 (and 125-129): write or drop the metadata entry; [metadata.copy()]
      raises AttributeError on an object without [copy]. *)
  Definition mem_write_meta (id : pystr) (metadata : option Mt) : M mem unit :=
    match metadata with
    | Some m =>
        if copyable m
        then modify (fun s => MkMem (m_vectors s) (dset id m (m_metadata s))
                                    (m_count s) (m_usage s) (m_init s))
        else raise EAttr
    | None =>
        modify (fun s => MkMem (m_vectors s) (ddel id (m_metadata s))
                               (m_count s) (m_usage s) (m_init s))
    end.

  (** [self.vectors[id] = vector.copy()]; memory.py:52,123. *)
  Definition mem_write_vec (id : pystr) (vector : V) : M mem unit :=
    modify (fun s => MkMem (dset id vector (m_vectors s)) (m_metadata s)
                           (m_count s) (m_usage s) (m_init s)).

  (** [self._vector_count = len(self.vectors)]; memory.py:61,97. *)
  Definition mem_set_count : M mem unit :=
    modify (fun s => MkMem (m_vectors s) (m_metadata s)
                           (Z.of_nat (length (m_vectors s))) (m_usage s) (m_init s)).

  (** [self._memory_usage = sum(...) + sum(...)]; memory.py:62-66,98-103,132-136. *)
  Definition mem_set_usage : M mem unit :=
    modify (fun s => MkMem (m_vectors s) (m_metadata s)
                           (m_count s) (mem_bytes s) (m_init s)).

  (** [MemoryStorage.store_vector]; memory.py:40-70.  The empty-id test comes before the
      initialisation test, as in the source. *)
  Definition mem_store (id : pystr) (vector : V) (metadata : option Mt) : M mem bool :=
    match id with
    | [] => ret false
    | _ =>
        s <- get ;;
        if negb (m_init s) then raise EStorage
        else wrap EStorage
               (mem_write_vec id vector ;;;
                mem_write_meta id metadata ;;;
                mem_set_count ;;;
                mem_set_usage ;;;
                ret true)
    end.

  (** [MemoryStorage.retrieve_vector]; memory.py:72-83. *)
  Definition mem_retrieve (id : pystr) : M mem (option (V * option Mt)) :=
    s <- get ;;
    if negb (m_init s) then raise EStorage
    else match dget id (m_vectors s) with
         | None => ret None
         | Some v => ret (Some (v, dget id (m_metadata s)))
         end.

  (** [MemoryStorage.delete_vector]; memory.py:85-108. *)
  Definition mem_delete (id : pystr) : M mem bool :=
    s <- get ;;
    if negb (m_init s) then raise EStorage
    else wrap EStorage
           (if dmem id (m_vectors s)
            then modify (fun s => MkMem (ddel id (m_vectors s)) (ddel id (m_metadata s))
                                        (m_count s) (m_usage s) (m_init s)) ;;;
                 mem_set_count ;;;
                 mem_set_usage ;;;
                 ret true
            else ret false).

  (** [MemoryStorage.update_vector]; memory.py:110-140.  The count is not touched. *)
  Definition mem_update (id : pystr) (vector : V) (metadata : option Mt) : M mem bool :=
    s <- get ;;
    if negb (m_init s) then raise EStorage
    else wrap EStorage
           (if negb (dmem id (m_vectors s)) then ret false
            else mem_write_vec id vector ;;;
                 mem_write_meta id metadata ;;;
                 mem_set_usage ;;;
                 ret true).

  (** [MemoryStorage.list_vectors]; memory.py:142-151. *)
  Definition mem_list (limit : option Z) : M mem (list pystr) :=
    s <- get ;;
    if negb (m_init s) then raise EStorage
    else match limit with
         | Some k => ret (slice_to k (dkeys (m_vectors s)))
         | None => ret (dkeys (m_vectors s))
         end.

  (** [MemoryStorage.get_stats]; memory.py:153-165 (the megabyte figure is dropped). *)
  Definition mem_get_stats : M mem (option mem_stats) :=
    s <- get ;;
    if negb (m_init s) then ret None
    else ret (Some {| ms_count := m_count s; ms_bytes := m_usage s |}).

  (** [MemoryStorage.close]; memory.py:167-174. *)
  Definition mem_close : M mem unit :=
    modify (fun _ => MkMem [] [] 0 0 false).

  (** ** DiskStorage *)

  Context `{Unicode}.

  (** [DiskStorage._sanitize_id]; disk.py:220-224. *)
  Definition sanitize_id (id : pystr) : pystr :=
    map (fun c => if isalnum c || memb c (py "._-") then c else 95%N) id.

  (** Contents of a file as the reader sees it: a complete object, or bytes that [np.load] or
      [pickle.load] reject (empty or truncated file). *)
  Inductive fcontent (A : Type) : Type :=
  | FGood (a : A)
  | FBad.
  Arguments FGood {A} a.
  Arguments FBad {A}.

  (** The two directories below [data_dir], file name to contents, and the fields of
      [DiskStorage]; disk.py:24-30. *)
  Record disk : Type := MkDisk {
    d_vectors : dict pystr (fcontent V);
    d_metadata : dict pystr (fcontent Mt);
    d_count : Z;
    d_init : bool
  }.

  (** File names below the vectors and metadata directories; disk.py:61,66,71,90,98,117,124,
      147,156,161. *)
  Definition npy_name (safe_id : pystr) : pystr := safe_id ++ py ".npy".
  Definition pkl_name (safe_id : pystr) : pystr := safe_id ++ py ".pkl".

  (** [name.endswith(suffix)], the test made by [glob("*.npy")]. *)
  Definition ends_with (suffix name : pystr) : bool :=
    eqb (skipn (length name - length suffix) name) suffix.

  (** [Path.stem] of a name known to end in ".npy": drop the last four characters. *)
  Definition stem4 (name : pystr) : pystr := firstn (length name - 4) name.

  (** [vectors_dir.glob("*.npy")]: the operating system lists the directory in an order of its
      own choosing, given by [dirorder]. *)
  Definition glob_npy (dirorder : list pystr -> list pystr) (s : disk) : list pystr :=
    filter (ends_with (py ".npy")) (dirorder (dkeys (d_vectors s))).

  (** [DiskStorage.__init__] over the present contents of the directory; disk.py:24-30. *)
  Definition disk_new (vfiles : dict pystr (fcontent V)) (mfiles : dict pystr (fcontent Mt)) : disk :=
    MkDisk vfiles mfiles 0 false.

  Context (dirorder : list pystr -> list pystr).

  (** [self._vector_count = len(list(self.vectors_dir.glob("*.npy")))]; disk.py:41,75,129. *)
  Definition disk_recount : M disk unit :=
    modify (fun s => MkDisk (d_vectors s) (d_metadata s)
                            (Z.of_nat (length (glob_npy dirorder s))) (d_init s)).

  (** [DiskStorage.initialize]; disk.py:32-45 (directory creation cannot fail here). *)
  Definition disk_initialize : M disk unit :=
    disk_recount ;;;
    modify (fun s => MkDisk (d_vectors s) (d_metadata s) (d_count s) true).

  (** [np.save(vector_path, vector)] run to completion; disk.py:62,152. *)
  Definition disk_write_vec (safe_id : pystr) (vector : V) : M disk unit :=
    modify (fun s => MkDisk (dset (npy_name safe_id) (FGood vector) (d_vectors s))
                            (d_metadata s) (d_count s) (d_init s)).

  (** disk.py:64-73 (and 154-163): [open(..., "wb")] empties the file, then [pickle.dump]
      fills it or raises, leaving it unreadable; without metadata the file is removed. *)
  Definition disk_write_meta (safe_id : pystr) (metadata : option Mt) : M disk unit :=
    match metadata with
    | Some m =>
        modify (fun s => MkDisk (d_vectors s)
                                (dset (pkl_name safe_id) FBad (d_metadata s))
                                (d_count s) (d_init s)) ;;;
        if picklable m
        then modify (fun s => MkDisk (d_vectors s)
                                     (dset (pkl_name safe_id) (FGood m) (d_metadata s))
                                     (d_count s) (d_init s))
        else raise EType
    | None =>
        modify (fun s => MkDisk (d_vectors s) (ddel (pkl_name safe_id) (d_metadata s))
                                (d_count s) (d_init s))
    end.

  (** [DiskStorage.store_vector]; disk.py:47-79. *)
  Definition disk_store (id : pystr) (vector : V) (metadata : option Mt) : M disk bool :=
    match id with
    | [] => ret false
    | _ =>
        s <- get ;;
        if negb (d_init s) then raise EStorage
        else wrap EStorage
               (disk_write_vec (sanitize_id id) vector ;;;
                disk_write_meta (sanitize_id id) metadata ;;;
                disk_recount ;;;
                ret true)
    end.

  (** [DiskStorage.retrieve_vector]; disk.py:81-106. *)
  Definition disk_retrieve (id : pystr) : M disk (option (V * option Mt)) :=
    s <- get ;;
    if negb (d_init s) then raise EStorage
    else wrap EStorage
           (match dget (npy_name (sanitize_id id)) (d_vectors s) with
            | None => ret None
            | Some FBad => raise EValue
            | Some (FGood v) =>
                match dget (pkl_name (sanitize_id id)) (d_metadata s) with
                | None => ret (Some (v, None))
                | Some FBad => raise EValue
                | Some (FGood m) => ret (Some (v, Some m))
                end
            end).

  (** [DiskStorage.delete_vector]; disk.py:108-134. *)
  Definition disk_delete (id : pystr) : M disk bool :=
    s <- get ;;
    if negb (d_init s) then raise EStorage
    else wrap EStorage
           (let vector_deleted := dmem (npy_name (sanitize_id id)) (d_vectors s) in
            modify (fun s => MkDisk (ddel (npy_name (sanitize_id id)) (d_vectors s))
                                    (d_metadata s) (d_count s) (d_init s)) ;;;
            modify (fun s => MkDisk (d_vectors s)
                                    (ddel (pkl_name (sanitize_id id)) (d_metadata s))
                                    (d_count s) (d_init s)) ;;;
            if vector_deleted then disk_recount ;;; ret true else ret false).

  (** [DiskStorage.update_vector]; disk.py:136-168. *)
  Definition disk_update (id : pystr) (vector : V) (metadata : option Mt) : M disk bool :=
    s <- get ;;
    if negb (d_init s) then raise EStorage
    else wrap EStorage
           (if negb (dmem (npy_name (sanitize_id id)) (d_vectors s)) then ret false
            else disk_write_vec (sanitize_id id) vector ;;;
                 disk_write_meta (sanitize_id id) metadata ;;;
                 ret true).

  (** [DiskStorage.list_vectors]; disk.py:170-185. *)
  Definition disk_list (limit : option Z) : M disk (list pystr) :=
    s <- get ;;
    if negb (d_init s) then raise EStorage
    else let ids := map stem4 (glob_npy dirorder s) in
         match limit with
         | Some k => ret (slice_to k ids)
         | None => ret ids
         end.

  (** [DiskStorage.get_stats]["vector_count"]; disk.py:187-214. *)
  Definition disk_get_stats : M disk (option Z) :=
    s <- get ;;
    if negb (d_init s) then ret None else ret (Some (d_count s)).

  (** [DiskStorage.close]; disk.py:216-218. *)
  Definition disk_close : M disk unit :=
    modify (fun s => MkDisk (d_vectors s) (d_metadata s) (d_count s) false).

  (** ** HybridStorage *)

  (** Fields of [HybridStorage]; hybrid.py:26-39. *)
  Record hybrid : Type := MkHybrid {
    h_memory : mem;
    h_disk : disk;
    h_limit : Z;
    h_init : bool
  }.

  (** Calls on [self.memory_storage] and [self.disk_storage]. *)
  Definition on_mem {A} : M mem A -> M hybrid A :=
    zoom h_memory (fun t s => MkHybrid t (h_disk s) (h_limit s) (h_init s)).
  Definition on_disk {A} : M disk A -> M hybrid A :=
    zoom h_disk (fun t s => MkHybrid (h_memory s) t (h_limit s) (h_init s)).

  (** [HybridStorage.__init__] over the present contents of the data directory;
      hybrid.py:26-39. *)
  Definition hybrid_new (limit : Z) (vfiles : dict pystr (fcontent V))
      (mfiles : dict pystr (fcontent Mt)) : hybrid :=
    MkHybrid mem_new (disk_new vfiles mfiles) limit false.

  (** [HybridStorage.initialize]; hybrid.py:41-48. *)
  Definition hybrid_initialize : M hybrid unit :=
    wrap EStorage
      (on_mem mem_initialize ;;;
       on_disk disk_initialize ;;;
       modify (fun s => MkHybrid (h_memory s) (h_disk s) (h_limit s) true)).

  (** [HybridStorage._evict_from_memory]; hybrid.py:181-185. *)
  Definition hybrid_evict : M hybrid unit :=
    vector_ids <- on_mem (mem_list (Some 1%Z)) ;;
    match vector_ids with
    | [] => ret tt
    | first :: _ => _ <- on_mem (mem_delete first) ;; ret tt
    end.

  (** hybrid.py:67-75 (repeated at 99-107): make room if the memory tier is full, then store
      there.  [memory_stats.get("vector_count", 0)]: 0 when the tier is not initialised. *)
  Definition hybrid_cache (id : pystr) (vector : V) (metadata : option Mt) : M hybrid unit :=
    memory_stats <- on_mem mem_get_stats ;;
    s <- get ;;
    let current_count := match memory_stats with Some st => ms_count st | None => 0%Z end in
    if (current_count <? h_limit s)%Z
    then _ <- on_mem (mem_store id vector metadata) ;; ret tt
    else hybrid_evict ;;;
         _ <- on_mem (mem_store id vector metadata) ;; ret tt.

  (** [HybridStorage.store_vector]; hybrid.py:50-80. *)
  Definition hybrid_store (id : pystr) (vector : V) (metadata : option Mt) : M hybrid bool :=
    match id with
    | [] => ret false
    | _ =>
        s <- get ;;
        if negb (h_init s) then raise EStorage
        else wrap EStorage
               (disk_success <- on_disk (disk_store id vector metadata) ;;
                (if disk_success then hybrid_cache id vector metadata else ret tt) ;;;
                ret disk_success)
    end.

  (** [HybridStorage.retrieve_vector]; hybrid.py:82-112. *)
  Definition hybrid_retrieve (id : pystr) : M hybrid (option (V * option Mt)) :=
    s <- get ;;
    if negb (h_init s) then raise EStorage
    else wrap EStorage
           (r <- on_mem (mem_retrieve id) ;;
            match r with
            | Some x => ret (Some x)
            | None =>
                r' <- on_disk (disk_retrieve id) ;;
                match r' with
                | Some (vector, metadata) =>
                    hybrid_cache id vector metadata ;;; ret (Some (vector, metadata))
                | None => ret None
                end
            end).

  (** [HybridStorage.delete_vector]; hybrid.py:114-128. *)
  Definition hybrid_delete (id : pystr) : M hybrid bool :=
    s <- get ;;
    if negb (h_init s) then raise EStorage
    else wrap EStorage
           (memory_deleted <- on_mem (mem_delete id) ;;
            disk_deleted <- on_disk (disk_delete id) ;;
            ret (memory_deleted || disk_deleted)).

  (** [HybridStorage.update_vector]; hybrid.py:130-149. *)
  Definition hybrid_update (id : pystr) (vector : V) (metadata : option Mt) : M hybrid bool :=
    s <- get ;;
    if negb (h_init s) then raise EStorage
    else wrap EStorage
           (disk_success <- on_disk (disk_update id vector metadata) ;;
            (if disk_success
             then _ <- on_mem (mem_update id vector metadata) ;; ret tt
             else ret tt) ;;;
            ret disk_success).

  (** [HybridStorage.list_vectors]; hybrid.py:151-156. *)
  Definition hybrid_list (limit : option Z) : M hybrid (list pystr) :=
    s <- get ;;
    if negb (h_init s) then raise EStorage
    else on_disk (disk_list limit).

  (** [HybridStorage.get_stats]: the nested memory statistics and disk count;
      hybrid.py:158-172. *)
  Definition hybrid_get_stats : M hybrid (option (option mem_stats * option Z)) :=
    s <- get ;;
    if negb (h_init s) then ret None
    else a <- on_mem mem_get_stats ;;
         b <- on_disk disk_get_stats ;;
         ret (Some (a, b)).

  (** [HybridStorage.close]; hybrid.py:174-179. *)
  Definition hybrid_close : M hybrid unit :=
    on_mem mem_close ;;;
    on_disk disk_close ;;;
    modify (fun s => MkHybrid (h_memory s) (h_disk s) (h_limit s) false).
End Storage.

Arguments FGood {A} a.
Arguments FBad {A}.
Arguments mem : clear implicits.
Arguments disk : clear implicits.
Arguments hybrid : clear implicits.
