(** The two persistence managers: /repo/src/valori/persistence/tensor.py and incremental.py.

    Arrays [V] and pickled objects [O] are abstract; an object that [pickle] accepts is read
    back equal, an array of numbers is read back equal.  The [compression] option changes the
    encoding of an archive only and is not modelled. *)

From Coq Require Import String List Arith ZArith NArith Lia Bool.
From Verif Require Import PyBase PyMore Payload FsModel.
Import ListNotations.

(** ** [np.array(ids).tolist()] *)

(** Fixed-width strings lose their trailing NUL characters. *)
Fixpoint strip_nul (s : pystr) : pystr :=
  match s with
  | [] => []
  | c :: s' =>
      match strip_nul s' with
      | [] => if N.eqb c 0 then [] else [c]
      | t => c :: t
      end
  end.

(** [str(z)]. *)
Definition str_Z (z : Z) : pystr :=
  if (z <? 0)%Z then 45%N :: str_nat (Z.to_nat (- z)) else str_nat (Z.to_nat z).

(** The integers of numpy's default integer type. *)
Definition int64 (z : Z) : bool := ((- 2 ^ 63 <=? z) && (z <? 2 ^ 63))%Z.

Definition is_str (x : pid) : bool := match x with IStr _ => true | _ => false end.
Definition is_int (x : pid) : bool :=
  match x with IInt z | INp z => int64 z | _ => false end.
Definition is_obj (x : pid) : bool := match x with IObj _ => true | _ => false end.

(** [str(x)] of a string or an integer. *)
Definition pid_str (x : pid) : pystr :=
  match x with IStr s => s | IInt z | INp z => str_Z z | IObj _ => [] end.

(** [np.array(ids).tolist()], with [None] for an array of objects; tensor.py:91,94,116 and
    incremental.py:117,147.  Strings stay strings, integers of the default type stay integers,
    a mixture of both becomes strings.  [wide] is what numpy makes of lists with integers
    outside that type. *)
Definition np_ids (wide : list pid -> option (list pid)) (ids : list pid) : option (list pid) :=
  if existsb is_obj ids then None
  else if forallb is_str ids then Some (map (fun x => IStr (strip_nul (pid_str x))) ids)
  else if forallb is_int ids then
    Some (map (fun x => match x with INp z => IInt z | _ => x end) ids)
  else if forallb (fun x => is_str x || is_int x) ids then
    Some (map (fun x => IStr (strip_nul (pid_str x))) ids)
  else wide ids.

Section Persist.
  Context {V O : Type} {PL : Payload V O}.
  Context (wide : list pid -> option (list pid)).

  (** [pickle.dump(o, f)] into a new file. *)
  Definition write_pickle (parts : list pystr) (o : O) : M (fsys V O) unit :=
    write parts (CPickle o) (picklable o).

  (** [pickle.load] of whatever the path leads to, when it exists. *)
  Definition read_pickle (x : node V O) : result O :=
    match x with File (CPickle o) => Ok o | _ => Raise EValue end.

  (** [np.load] of whatever the path leads to, when it exists, and access to both arrays. *)
  Definition read_npz (x : node V O) : result (V * list pid) :=
    match x with File (CNpz v (Some ids)) => Ok (v, ids) | _ => Raise EValue end.

  (** ** TensorPersistence *)

  (** tensor.py:24-30; [t_base] is [data_dir], resolved. *)
  Record tensor : Type := MkTensor {
    t_fs : fsys V O;
    t_base : loc;
    t_init : bool;
    t_saves : nat;
    t_loads : nat
  }.

  Definition tensor_new (fs : fsys V O) (base : loc) : tensor := MkTensor fs base false 0 0.

  (** A call on the file system. *)
  Definition t_do {A} : M (fsys V O) A -> M tensor A :=
    zoom t_fs (fun fs s => MkTensor fs (t_base s) (t_init s) (t_saves s) (t_loads s)).

  (** [self._save_count += 1]; [self._load_count += 1]. *)
  Definition t_saved : M tensor unit :=
    modify (fun s => MkTensor (t_fs s) (t_base s) (t_init s) (S (t_saves s)) (t_loads s)).
  Definition t_loaded : M tensor unit :=
    modify (fun s => MkTensor (t_fs s) (t_base s) (t_init s) (t_saves s) (S (t_loads s))).

  (** tensor.py:32-39. *)
  Definition tensor_initialize : M tensor unit :=
    wrap EPersist
      (s <- get ;;
       t_do (mkdirs (t_base s)) ;;;
       modify (fun s => MkTensor (t_fs s) (t_base s) true (t_saves s) (t_loads s))).

  (** tensor.py:40-57. *)
  Definition tensor_save_state (state : O) (path : pystr) : M tensor bool :=
    s <- get ;;
    if negb (t_init s) then raise EPersist
    else wrap EPersist
      (let file_path := full (t_base s) path in
       t_do (mkdirs (removelast file_path)) ;;;
       t_do (write_pickle file_path state) ;;;
       t_saved ;;;
       ret true).

  (** tensor.py:59-76. *)
  Definition tensor_load_state (path : pystr) : M tensor (option O) :=
    s <- get ;;
    if negb (t_init s) then raise EPersist
    else wrap EPersist
      (match node_at (f_tree (t_fs s)) (full (t_base s) path) with
       | None => ret None
       | Some x => o <- lift (read_pickle x) ;; t_loaded ;;; ret (Some o)
       end).

  (** tensor.py:78-100. *)
  Definition tensor_save_vectors (vectors : V) (ids : list pid) (path : pystr) : M tensor bool :=
    s <- get ;;
    if negb (t_init s) then raise EPersist
    else wrap EPersist
      (let file_path := full (t_base s) path in
       t_do (mkdirs (removelast file_path)) ;;;
       t_do (write (npz_path file_path) (CNpz vectors (np_ids wide ids)) true) ;;;
       t_saved ;;;
       ret true).

  (** tensor.py:102-122; [None] stands for the pair [(None, None)]. *)
  Definition tensor_load_vectors (path : pystr) : M tensor (option (V * list pid)) :=
    s <- get ;;
    if negb (t_init s) then raise EPersist
    else wrap EPersist
      (match node_at (f_tree (t_fs s)) (full (t_base s) path) with
       | None => ret None
       | Some x => o <- lift (read_npz x) ;; t_loaded ;;; ret (Some o)
       end).

  (** tensor.py:124-142. *)
  Definition tensor_save_index (index_data : O) (path : pystr) : M tensor bool :=
    s <- get ;;
    if negb (t_init s) then raise EPersist
    else wrap EPersist
      (let file_path := full (t_base s) path in
       t_do (mkdirs (removelast file_path)) ;;;
       t_do (write_pickle file_path index_data) ;;;
       t_saved ;;;
       ret true).

  (** tensor.py:144-163. *)
  Definition tensor_load_index (path : pystr) : M tensor (option O) :=
    s <- get ;;
    if negb (t_init s) then raise EPersist
    else wrap EPersist
      (match node_at (f_tree (t_fs s)) (full (t_base s) path) with
       | None => ret None
       | Some x => o <- lift (read_pickle x) ;; t_loaded ;;; ret (Some o)
       end).

  (** tensor.py:198-200. *)
  Definition tensor_close : M tensor unit :=
    modify (fun s => MkTensor (t_fs s) (t_base s) false (t_saves s) (t_loads s)).

  (** ** IncrementalPersistence *)

  (** incremental.py:26-36. *)
  Record incr : Type := MkIncr {
    i_fs : fsys V O;
    i_base : loc;
    i_interval : Z;
    i_init : bool;
    i_count : nat;
    i_last : nat
  }.

  Definition incr_new (fs : fsys V O) (base : loc) (interval : Z) : incr :=
    MkIncr fs base interval false 0 0.

  Definition i_do {A} : M (fsys V O) A -> M incr A :=
    zoom i_fs (fun fs s => MkIncr fs (i_base s) (i_interval s) (i_init s) (i_count s) (i_last s)).

  (** [self._operation_count = c]; [self._last_checkpoint = l]. *)
  Definition set_count (c : nat) : M incr unit :=
    modify (fun s => MkIncr (i_fs s) (i_base s) (i_interval s) (i_init s) c (i_last s)).
  Definition set_last (l : nat) : M incr unit :=
    modify (fun s => MkIncr (i_fs s) (i_base s) (i_interval s) (i_init s) (i_count s) l).
  Definition set_init (b : bool) : M incr unit :=
    modify (fun s => MkIncr (i_fs s) (i_base s) (i_interval s) b (i_count s) (i_last s)).

  (** File names; incremental.py:33,34,64. *)
  Definition log_name : pystr := py "operations.log".
  Definition info_name : pystr := py "checkpoint.json".
  Definition ckpt_name (n : nat) : pystr := py "checkpoint_" ++ str_nat n ++ py ".pkl".

  (** [_load_checkpoint_info]; incremental.py:289-305.  Anything but checkpoint information is
      rejected by [json.load], whose exception is swallowed. *)
  Definition load_info : M incr unit :=
    s <- get ;;
    match node_at (f_tree (i_fs s)) (i_base s ++ [info_name]) with
    | Some (File (CInfo l c)) => set_last l ;;; set_count c
    | _ => set_last 0 ;;; set_count 0
    end.

  (** [_save_checkpoint_info]; incremental.py:274-287. *)
  Definition save_info : M incr unit :=
    wrap EPersist
      (s <- get ;;
       i_do (write (i_base s ++ [info_name]) (CInfo (i_last s) (i_count s)) true)).

  (** [_create_checkpoint]; incremental.py:263-272. *)
  Definition create_checkpoint : M incr unit :=
    wrap EPersist (s <- get ;; set_last (i_count s) ;;; save_info).

  (** [_log_operation]; incremental.py:238-261.  [json]: whether [json.dumps] accepts the
      data. *)
  Definition log_operation (operation : pystr) (json : bool) : M incr unit :=
    wrap EPersist
      (s <- get ;;
       (if json then i_do (append (i_base s ++ [log_name]) (MkLine operation (i_count s)))
        else raise EType) ;;;
       set_count (S (i_count s)) ;;;
       (s <- get ;;
        if (i_interval s <=? Z.of_nat (i_count s) - Z.of_nat (i_last s))%Z
        then create_checkpoint else ret tt)).

  (** incremental.py:38-55. *)
  Definition incr_initialize : M incr unit :=
    wrap EPersist
      (s <- get ;;
       i_do (mkdirs (i_base s)) ;;;
       (s <- get ;;
        match node_at (f_tree (i_fs s)) (i_base s ++ [log_name]) with
        | None => i_do (touch (i_base s ++ [log_name]))
        | Some _ => ret tt
        end) ;;;
       load_info ;;;
       set_init true).

  (** incremental.py:57-79. *)
  Definition incr_save_state (state : O) (path : pystr) : M incr bool :=
    s <- get ;;
    if negb (i_init s) then raise EPersist
    else wrap EPersist
      (i_do (write_pickle (i_base s ++ [ckpt_name (i_count s)]) state) ;;;
       set_last (i_count s) ;;;
       save_info ;;;
       log_operation (py "save_state") true ;;;
       ret true).

  (** [glob("checkpoint_*.pkl")]; incremental.py:88. *)
  Definition is_ckpt (n : pystr) : bool :=
    eqb (firstn 11 n) (py "checkpoint_") && has_suffix (py ".pkl") n && (15 <=? length n)%nat.

  (** [int(x.stem.split("_")[1])]; incremental.py:93. *)
  Definition ckpt_key (n : pystr) : result Z :=
    match nth_error (split 95 (firstn (length n - 4) n)) 1 with
    | None => Raise EIndexRange
    | Some w => match py_int w with Some z => Ok z | None => Raise EValue end
    end.

  (** incremental.py:81-105; [dirorder] is the order in which the operating system lists the
      directory.  [_replay_operations] (307-317) returns its argument. *)
  Definition incr_load_state (dirorder : list pystr -> list pystr) (path : pystr) :
      M incr (option O) :=
    s <- get ;;
    if negb (i_init s) then raise EPersist
    else wrap EPersist
      (match filter is_ckpt (dirorder (children (f_tree (i_fs s)) (i_base s))) with
       | [] => ret None
       | files =>
           ks <- lift (rmap ckpt_key files) ;;
           let latest := last (map snd (sort (fun x y => (fst x <=? fst y)%Z) (combine ks files))) [] in
           match node_at (f_tree (i_fs s)) (i_base s ++ [latest]) with
           | Some x => o <- lift (read_pickle x) ;; ret (Some o)
           | None => raise EOs
           end
       end).

  (** What [json.dumps] says about the first ten ids; incremental.py:120-127. *)
  Definition json_ids (ids : list pid) : bool :=
    forallb (fun x => match x with IStr _ | IInt _ => true | INp _ => false | IObj b => b end)
            (firstn 10 ids).

  (** incremental.py:107-132. *)
  Definition incr_save_vectors (vectors : V) (ids : list pid) (path : pystr) : M incr bool :=
    s <- get ;;
    if negb (i_init s) then raise EPersist
    else wrap EPersist
      (let file_path := full (i_base s) path in
       i_do (mkdirs (removelast file_path)) ;;;
       i_do (write (npz_path file_path) (CNpz vectors (np_ids wide ids)) true) ;;;
       log_operation (py "save_vectors") (json_ids ids) ;;;
       ret true).

  (** incremental.py:134-152. *)
  Definition incr_load_vectors (path : pystr) : M incr (option (V * list pid)) :=
    s <- get ;;
    if negb (i_init s) then raise EPersist
    else wrap EPersist
      (match node_at (f_tree (i_fs s)) (full (i_base s) path) with
       | None => ret None
       | Some x => o <- lift (read_npz x) ;; ret (Some o)
       end).

  (** incremental.py:154-173. *)
  Definition incr_save_index (index_data : O) (path : pystr) : M incr bool :=
    s <- get ;;
    if negb (i_init s) then raise EPersist
    else wrap EPersist
      (let file_path := full (i_base s) path in
       i_do (mkdirs (removelast file_path)) ;;;
       i_do (write_pickle file_path index_data) ;;;
       log_operation (py "save_index") true ;;;
       ret true).

  (** incremental.py:175-192. *)
  Definition incr_load_index (path : pystr) : M incr (option O) :=
    s <- get ;;
    if negb (i_init s) then raise EPersist
    else wrap EPersist
      (match node_at (f_tree (i_fs s)) (full (i_base s) path) with
       | None => ret None
       | Some x => o <- lift (read_pickle x) ;; ret (Some o)
       end).

  (** incremental.py:234-236. *)
  Definition incr_close : M incr unit := set_init false.
End Persist.

Arguments tensor V O : clear implicits.
Arguments incr V O : clear implicits.
Arguments MkTensor {V O} t_fs t_base t_init t_saves t_loads.
Arguments MkIncr {V O} i_fs i_base i_interval i_init i_count i_last.
