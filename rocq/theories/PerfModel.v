(** Model of [validate_index_performance] (/repo/src/valori/utils/helpers.py:438-485): vectors are
    added to an index, queries are run, and the times are put into a report.  The clock is a
    sequence of readings. *)

From Coq Require Import List Arith ZArith NArith Bool.
From Verif Require Import PyBase PyMore Payload Num StorageModel StorageRun ClientModel LshModel AnnoyModel SimilarityModel.
Import ListNotations.
Open Scope py_scope.

(** The methods the function calls; helpers.py:455-471, 484.  [None] where the class has no such
    method.  The number given to [ob_search] tells the calls apart. *)
Record bench_object (X F Mt : Type) : Type := MkBench {
  ob_add : option (ndarray F -> list (option Mt) -> M X (list Z));
  ob_build : option (M X unit);
  ob_search : nat -> list F -> Z -> M X (list (lsh_hit F Mt));
  ob_count : X -> nat
}.
Arguments MkBench {X F Mt}.
Arguments ob_add {X F Mt} b.
Arguments ob_build {X F Mt} b.
Arguments ob_search {X F Mt} b.
Arguments ob_count {X F Mt} b.

(** The report; helpers.py:478-484.  Of the index's statistics only the count is kept. *)
Record bench_report (T : Type) : Type := MkBenchReport {
  br_add_time : T;
  br_add_throughput : T;
  br_avg_search_time : T;
  br_search_throughput : T;
  br_count : nat
}.
Arguments MkBenchReport {T}.
Arguments br_add_time {T} b.
Arguments br_add_throughput {T} b.
Arguments br_avg_search_time {T} b.
Arguments br_search_throughput {T} b.
Arguments br_count {T} b.

Section Perf.
  Context {X F Mt T : Type} `{Num T}.
  Context (ob : bench_object X F Mt).
  (** [time.time()]: the readings in order; helpers.py:453, 460, 465, 467. *)
  Context (clock : nat -> T).
  (** The dictionary [{"id": i}]; helpers.py:454. *)
  Context (numbered : nat -> Mt).

  (** [a / b] of two Python numbers, one of which is a count ([nof]); helpers.py:474, 478. *)
  Definition py_div (a b : T) : result T := if neqb b nzero then Raise EZeroDiv else Ok (ndiv a b).

  (** The object and the number of readings taken. *)
  Definition tick : M (X * nat) T :=
    fun s => (Ok (clock (snd s)), (fst s, S (snd s))).
  Definition on_object {A} : M X A -> M (X * nat) A := zoom fst (fun x s => (x, snd s)).

  (** One turn of the loop of helpers.py:464-467. *)
  Definition timed_search (k : Z) (iq : nat * list F) : M (X * nat) T :=
    start_time <- tick ;;
    _ <- on_object (ob_search ob (fst iq) (snd iq) k) ;;
    now <- tick ;;
    ret (nsub now start_time).

  (** [validate_index_performance]; helpers.py:438-485.  [np.mean] of no times is nan and does not
      raise; the division after it then does. *)
  Definition validate_index_performance (test_vectors : ndarray F) (test_queries : list (list F)) (k : Z)
      : M (X * nat) (bench_report T) :=
    start_time <- tick ;;
    n <- lift (py_len test_vectors) ;;
    add <- lift (match ob_add ob with Some f => Ok f | None => Raise EAttr end) ;;
    _ <- on_object (add test_vectors (map (fun i => Some (numbered i)) (seq 0 n))) ;;
    match ob_build ob with Some build => on_object build | None => ret tt end ;;;
    now <- tick ;;
    let add_time := nsub now start_time in
    search_times <- mapM (enumerate test_queries) (timed_search k) ;;
    let avg_search_time := ndiv (nsum search_times) (nof (length search_times)) in
    search_throughput <- lift (py_div (nof (length test_queries)) (nsum search_times)) ;;
    add_throughput <- lift (py_div (nof n) add_time) ;;
    s <- get ;;
    ret (MkBenchReport add_time add_throughput avg_search_time search_throughput (ob_count ob (fst s))).
End Perf.

(** The LSH index as this function sees it: lsh.py:65, 130, 276; it has no [build]. *)
Definition lsh_object {F Mt} `{Num F} `{Payload (list F) Mt} (n_tables hash_size n_proj : nat) (lmt : lsh_metric)
    (threshold : F) (o : lsh_orc F) (os : nat -> lsh_orc F) : bench_object (lsh F Mt) F Mt :=
  MkBench (Some (lsh_add n_tables hash_size n_proj o)) None
          (fun i q k => lsh_search n_tables hash_size n_proj lmt threshold (os i) (Vec q) k) lsh_count.

(** The Annoy index: annoy.py:152, 202, 227, 314. *)
Definition annoy_object {F Mt} `{Num F} `{Payload (list F) Mt} (amt : annoy_metric)
    (o : annoy_orc F) (os : nat -> annoy_orc F) : bench_object (annoy F Mt) F Mt :=
  MkBench (Some (an_add o)) (Some an_build) (fun i q k => an_search amt (os i) (Vec q) k) an_count.

(** The other indexes have neither [add] nor [build]; flat.py, hnsw.py and ivf.py define
    [insert] only (base.py:42). *)
Definition inserting_object {X S F Mt Orc} (IC : index_class X S F Mt Orc) (o : Orc) : bench_object (X * S) F Mt :=
  MkBench None None
          (fun _ q k => hits <- ix_search IC o (Vec q) k ;; ret (map (fun h => MkLhit 0 (h_dist h) (h_meta h)) hits))
          (fun x => match ix_count IC (fst x) with Some z => Z.to_nat z | None => 0 end).
