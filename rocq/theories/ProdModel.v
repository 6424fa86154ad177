(** Model of /repo/examples/production_setup.py: [ProductionVectorDB], a wrapper that builds a
    client over hybrid storage and a graph index from a configuration file and adds a health
    report and a backup.

    Clocks and log messages are left out: no branch depends on them. *)

From Coq Require Import List Arith ZArith NArith Bool.
From Coq Require String.
Import (notations) Coq.Strings.String.
From Verif Require Import PyBase Payload StorageModel StorageSpec StorageRun Num ClientModel HnswModel.
Import ListNotations.
Open Scope py_scope.

(** What the wrapper looks up in its configuration: whether the required sections are there
    (production_setup.py:45, 48) and whether the optional ones are given and not empty
    (production_setup.py:51-53, 56-58).  The values inside the sections are parameters of the
    model: the memory limit of the storage, the settings of the index. *)
Record prod_config : Type := MkPConf {
  pc_storage : bool; pc_index : bool; pc_quant : bool; pc_pers : bool }.

(** What [get_stats()] of a client in service contains, as far as it varies: the index's vector
    count and number of levels (hnsw.py:241-251), the two tiers (hybrid.py:166-172), the bytes
    below the data directory (disk.py:193-205). *)
Record prod_stats : Type := MkPStats {
  ps_index : option (Z * nat); ps_storage : option (option mem_stats * option (Z * N)) }.

(** The file written by [backup_database]; production_setup.py:186-190, without the time. *)
Record backup : Type := MkBackup { bk_stats : prod_stats; bk_config : prod_config }.

(** The answers of [get_health_status]; production_setup.py:148-157, 172.  The memory figure is
    in bytes: the code divides it by a power of two, which is exact. *)
Inductive health : Type :=
| Healthy (count : Z) (memory disk : N) (trained quantization persistence : bool)
          (warnings : list pystr)
| Unhealthy (error : exn).

Section Prod.
  Context {F Mt : Type} `{Num F} `{Payload (list F) Mt} `{Unicode}.
  Context (dirorder : list pystr -> list pystr) (limit m ef : Z) (mt : metric).
  (** Sizes of the files holding a vector and a metadata object; disk.py:195-197. *)
  Context (vec_file : list F -> N) (meta_file : Mt -> N).

  (** [HybridStorage] and [HNSWIndex]; production_setup.py:46, 49. *)
  Definition pstore : storage_class (hybrid (list F) Mt) (list F) Mt := hybrid_class dirorder.
  Definition pindex : index_class (hnsw F) (hybrid (list F) Mt) F Mt hnsw_rand :=
    hnsw_class pstore m ef mt.

  (** The client the wrapper builds; production_setup.py:61.  As in [ClientModel], of the optional
      quantizer and persistence manager only the outcomes of [initialize] and [close] matter. *)
  Definition pclient : Type := client (hnsw F) (hybrid (list F) Mt).

  (** Fields of [ProductionVectorDB] (production_setup.py:25-29).  [w_files] is the storage of an
      earlier object, through which the files in the data directory are found while this object
      has no client; [w_backups] are the backup files written so far. *)
  Record pwrap : Type := MkProd {
    w_config : prod_config;
    w_client : option pclient;
    w_files : hybrid (list F) Mt;
    w_backups : dict pystr backup
  }.

  (** [ProductionVectorDB.__init__]; production_setup.py:25-34, over an empty data directory. *)
  Definition prod_new (c : prod_config) : pwrap := MkProd c None (hybrid_new limit [] []) [].

  (** The storage whose files the next [HybridStorage] finds; production_setup.py:46. *)
  Definition last_storage (w : pwrap) : hybrid (list F) Mt :=
    match w_client w with Some c => c_storage c | None => w_files w end.

  (** A new process: the wrapper is constructed again from the same configuration file;
      production_setup.py:25-34. *)
  Definition prod_reopen (w : pwrap) : pwrap :=
    MkProd (w_config w) None (last_storage w) (w_backups w).

  (** A call on [self.client]; an AttributeError when it is [None]; production_setup.py:77, 97,
      116, 135, 146, 185. *)
  Definition on_client {A} (k : M pclient A) : M pwrap A :=
    fun w => match w_client w with
             | None => (Raise EAttr, w)
             | Some c => let (r, c') := k c in
                         (r, MkProd (w_config w) (Some c') (w_files w) (w_backups w))
             end.

  (** [initialize]; production_setup.py:36-68.  [setup] is the outcome of [setup_logging],
      [extra] those of the optional components' [initialize].  [self.client] is assigned before
      the client is initialised; every exception is raised again. *)
  Definition prod_initialize (setup : result unit) (o : hnsw_rand) (extra : list (result unit))
      : M pwrap unit :=
    lift setup ;;;
    w <- get ;;
    if negb (pc_storage (w_config w)) then raise EKey
    else if negb (pc_index (w_config w)) then raise EKey
    else
      modify (fun w => MkProd (w_config w)
                         (Some (MkClient (ix_new pindex) (sc_reopen pstore (last_storage w)) false))
                         (w_files w) (w_backups w)) ;;;
      on_client (cl_initialize pstore pindex o extra).

  (** production_setup.py:70-89.  Arrays have a length, so [len(vectors)] does not raise (an array
      of no dimensions is not considered). *)
  Definition prod_insert o fresh arr metadata : M pwrap (list pystr) :=
    on_client (cl_insert pindex o fresh arr metadata).

  (** production_setup.py:91-107. *)
  Definition prod_search o q k : M pwrap (list (hit F Mt)) := on_client (cl_search pindex o q k).

  (** production_setup.py:109-126. *)
  Definition prod_update o id v md : M pwrap bool := on_client (cl_update pindex o id v md).

  (** production_setup.py:128-143. *)
  Definition prod_delete ids : M pwrap bool := on_client (cl_delete pindex ids).

  (** The bytes below the data directory; disk.py:194-197. *)
  Definition file_bytes {A} (size : A -> N) (f : fcontent A) : N :=
    match f with FGood a => size a | FBad => 0%N end.
  Definition disk_bytes (d : disk (list F) Mt) : N :=
    (fold_right (fun f a => file_bytes vec_file f + a) 0 (dvals (d_vectors d)) +
     fold_right (fun f a => file_bytes meta_file f + a) 0 (dvals (d_metadata d)))%N.

  (** [self.client.get_stats()]; client.py:98-114, hybrid.py:158-172, disk.py:187-205,
      hnsw.py:236-251.  Walking the directory is taken to succeed. *)
  Definition client_stats : M pclient prod_stats :=
    guarded (st <- on_storage hybrid_get_stats ;;
             c <- get ;;
             ret (MkPStats
                    (option_map (fun n => (n, length (h_levels (c_index c)))) (ix_count pindex (c_index c)))
                    (option_map (fun ab => (fst ab,
                        option_map (fun n => (n, disk_bytes (h_disk (c_storage c)))) (snd ab))) st))).

  (** production_setup.py:148-169: reading the report.  The index's report has no key "trained", so
      [index_trained] is True; a missing key is a KeyError. *)
  Definition read_health (c : prod_config) (st : prod_stats) : result health :=
    match ps_index st with
    | None => Raise EKey
    | Some (n, _) =>
        match ps_storage st with
        | None => Raise EKey
        | Some (None, _) => Raise EKey
        | Some (Some mem, None) => Raise EKey
        | Some (Some mem, Some (_, bytes)) =>
            Ok (Healthy n (ms_bytes mem) bytes true (pc_quant c) (pc_pers c)
                  (if (1000 * 1048576 <? ms_bytes mem)%N then [py "High memory usage"] else []))
        end
    end.

  (** [get_health_status]; production_setup.py:145-175. *)
  Definition prod_health : M pwrap health :=
    fun w =>
      match (st <- on_client client_stats ;; lift (read_health (w_config w) st)) w with
      | (Ok h, w') => (Ok h, w')
      | (Raise e, w') => (Ok (Unhealthy e), w')
      end.

  (** [backup_database]; production_setup.py:177-204.  [written] is the outcome of creating and
      writing the file; a file left half written by a failure is not kept. *)
  Definition prod_backup (path : pystr) (written : result unit) : M pwrap bool :=
    fun w =>
      match (st <- on_client client_stats ;; lift written ;;; ret st) w with
      | (Ok st, w') =>
          (Ok true, MkProd (w_config w') (w_client w') (w_files w')
                      (dset path (MkBackup st (w_config w')) (w_backups w')))
      | (Raise e, w') => (Ok false, w')
      end.

  (** [close]; production_setup.py:206-213: every exception is swallowed. *)
  Definition prod_close (extra : list (result unit)) : M pwrap unit :=
    fun w =>
      match w_client w with
      | None => (Ok tt, w)
      | Some _ => (Ok tt, snd (on_client (cl_close pstore pindex extra) w))
      end.

  (** The calls on a wrapper; production_setup.py:22-213. *)
  Inductive pop : Type :=
  | PInit (setup : result unit) (o : hnsw_rand) (extra : list (result unit))
  | PInsert (o : hnsw_rand) (fresh : nat -> pystr) (arr : ndarray F) (meta : option (list (option Mt)))
  | PSearch (o : hnsw_rand) (q : ndarray F) (k : Z)
  | PUpdate (o : hnsw_rand) (id : pystr) (v : list F) (md : option Mt)
  | PDelete (ids : list pystr)
  | PHealth
  | PBackup (path : pystr) (written : result unit)
  | PClose (extra : list (result unit))
  | PNew.

  (** Their answers. *)
  Inductive pret : Type :=
  | PUnit
  | PIds (l : list pystr)
  | PHits (l : list (hit F Mt))
  | PBool (b : bool)
  | PReport (h : health)
  | PExn (e : exn).

  (** Turn the outcome of a method of production_setup.py:36-213 into an observation. *)
  Definition pobs {A} (f : A -> pret) (r : result A * pwrap) : pret * pwrap :=
    match r with
    | (Ok a, w) => (f a, w)
    | (Raise e, w) => (PExn e, w)
    end.

  (** Dispatch one call; production_setup.py:36-213. *)
  Definition prod_step (w : pwrap) (o : pop) : pret * pwrap :=
    match o with
    | PInit setup o extra => pobs (fun _ => PUnit) (prod_initialize setup o extra w)
    | PInsert o fresh arr meta => pobs PIds (prod_insert o fresh arr meta w)
    | PSearch o q k => pobs PHits (prod_search o q k w)
    | PUpdate o id v md => pobs PBool (prod_update o id v md w)
    | PDelete ids => pobs PBool (prod_delete ids w)
    | PHealth => pobs PReport (prod_health w)
    | PBackup path written => pobs PBool (prod_backup path written w)
    | PClose extra => pobs (fun _ => PUnit) (prod_close extra w)
    | PNew => (PUnit, prod_reopen w)
    end.

  (** Run a history of calls, collecting the answers; production_setup.py:36-213. *)
  Fixpoint prod_run (w : pwrap) (ops : list pop) : list pret * pwrap :=
    match ops with
    | [] => ([], w)
    | o :: ops' =>
        let (r, w') := prod_step w o in
        let (rs, w'') := prod_run w' ops' in
        (r :: rs, w'')
    end.
End Prod.
Arguments pop : clear implicits.
Arguments pret : clear implicits.
Arguments pwrap : clear implicits.
