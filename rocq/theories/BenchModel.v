(** The benchmark script /repo/scripts/benchmark.py, without its timings: what it does to the
    database and which of its reports it gets to.

    Simplified: of a report only the vector count is kept; the elapsed times are given (they matter
    only where they are divided by); printing is left out. *)

From Coq Require Import List Arith ZArith NArith Bool.
From Verif Require Import PyBase Payload StorageModel StorageSpec StorageRun Num ClientModel DbSpec ClientRun.
From Verif Require Import XReal ScalarModel ProductModel FullClientModel.
Import ListNotations.
Open Scope py_scope.

(** What one measurement works on: [vectors], [metadata] (benchmark.py:33-38), the uuids drawn, the
    oracle of each call, and the two times measured, in clock ticks ([time.time()] may give the
    same value twice). *)
Record bench (F Mt Orc : Type) : Type := MkBench {
  bn_rows : list (list F);
  bn_meta : option (list (option Mt));
  bn_fresh : nat -> pystr;
  bn_orc : nat -> Orc;
  bn_insert_time : Z;
  bn_search_time : Z }.
Arguments MkBench {F Mt Orc} _ _ _ _ _ _.
Arguments bn_rows {F Mt Orc} _.
Arguments bn_meta {F Mt Orc} _.
Arguments bn_fresh {F Mt Orc} _ _.
Arguments bn_orc {F Mt Orc} _ _.
Arguments bn_insert_time {F Mt Orc} _.
Arguments bn_search_time {F Mt Orc} _.

(** Division by a measured time; benchmark.py:83-85, 133-135. *)
Definition per {S} (time : Z) : M S unit := if Z.eqb time 0 then raise EZeroDiv else ret tt.

(** [query_vector = vectors[0]]; benchmark.py:72, 122, 167. *)
Definition first_row {S F} (rows : list (list F)) : M S (list F) :=
  match rows with
  | [] => raise EIndexRange
  | q :: _ => ret q
  end.

Section Bench.
  Context {X S F Mt Orc : Type}.
  Context (C : storage_class S (list F) Mt) (IC : index_class X S F Mt Orc).

  (** [for _ in range(100): client.search(query_vector, k=10)]; benchmark.py:74-75, 124-125. *)
  Definition bench_searches (r : bench F Mt Orc) (query : list F) : M (client X S) unit :=
    forM (seq 1 100) (fun i => _ <- cl_search IC (bn_orc r i) (Vec query) 10 ;; ret tt).

  (** The body of the loops over backends and over indexes: initialise, insert, search 100 times,
      report, close; benchmark.py:62-91, 113-144.  The answer is ["vector_count"] of the report. *)
  Definition bench_client (r : bench F Mt Orc) : M (client X S) Z :=
    cl_initialize C IC (bn_orc r 0) [] ;;;
    _ <- cl_insert IC (bn_orc r 0) (bn_fresh r) (Mat (bn_rows r)) (bn_meta r) ;;
    query <- first_row (bn_rows r) ;;
    bench_searches r query ;;;
    stats <- cl_stats C IC ;;
    per (bn_insert_time r) ;;;
    per (bn_search_time r) ;;;
    count <- match fst stats with Some n => ret n | None => raise EKey end ;;
    cl_close C IC [] ;;;
    ret count.

  (** The script started again and again over the same data directory; benchmark.py:47-63 constructs
      backend, index and client anew. *)
  Fixpoint bench_again (runs : list (bench F Mt Orc)) (c : client X S) : list (result Z) :=
    match runs with
    | [] => []
    | r :: runs' =>
        let (a, c') := bench_client r c in
        a :: bench_again runs' (cl_reopen C IC c')
    end.

  (** One round of the comparison of indexes: a new index and a new client over the backend that
      all rounds share; benchmark.py:108-114. *)
  Definition bench_index (r : bench F Mt Orc) : M S Z :=
    fun s => let (a, c) := bench_client r (cl_new IC s) in (a, c_storage c).
End Bench.

(** [benchmark_index_types]; benchmark.py:95-146: the three indexes in order over one backend. *)
Definition bench_indexes {S F Mt X1 X2 X3 O1 O2 O3} (C : storage_class S (list F) Mt)
    (flat : index_class X1 S F Mt O1) (hnsw : index_class X2 S F Mt O2)
    (ivf : index_class X3 S F Mt O3) (r1 : bench F Mt O1) (r2 : bench F Mt O2) (r3 : bench F Mt O3)
    : M S (list Z) :=
  a <- bench_index C flat r1 ;;
  b <- bench_index C hnsw r2 ;;
  c <- bench_index C ivf r3 ;;
  ret [a; b; c].

(** ** The comparison of quantizers *)

Section Quant.
  Context {X S F Mt Orc P : Type}.
  Context (C : storage_class S (list F) Mt) (IC : index_class X S F Mt Orc) (CP : component P).

  (** The body of the loop over quantizers; benchmark.py:194-214.  [ratio] answers
      [stats["quantization"]["compression_ratio"]], [None] when there is no such key. *)
  Definition bench_quantizer {Q} (CQ : component Q) (ratio : Q -> option Z) (r : bench F Mt Orc)
      (query : list F) : M (fclient X S Q P) Z :=
    fl_initialize C IC CQ CP (bn_orc r 0) ;;;
    _ <- fl_insert IC (bn_orc r 0) (bn_fresh r) (Mat (bn_rows r)) (bn_meta r) ;;
    forM (seq 1 100) (fun i => _ <- fl_search IC (bn_orc r i) (Vec query) 10 ;; ret tt) ;;;
    _ <- fl_stats C IC CQ CP ;;
    c <- get ;;
    answer <- match fc_quant c with
              | Some q => match ratio q with Some x => ret x | None => raise EKey end
              | None => raise EKey
              end ;;
    fl_close C IC CQ CP ;;;
    ret answer.

  (** [VectorDBClient(storage, index, quantizer)] over the objects shared by all rounds;
      benchmark.py:155-156, 194. *)
  Definition bench_round {Q} (CQ : component Q) (ratio : Q -> option Z) (q0 : Q) (r : bench F Mt Orc)
      (query : list F) : M (X * S) Z :=
    fun w =>
      let (a, c) := bench_quantizer CQ ratio r query (MkFull (fst w) (snd w) (Some q0) None false) in
      (a, (fc_index c, fc_storage c)).

  (** The baseline round, without a quantizer; benchmark.py:160-181.  Its report divides by no
      measured time: the times below stand for that. *)
  Definition bench_baseline (r : bench F Mt Orc) : M (X * S) unit :=
    fun w =>
      let r' := MkBench (bn_rows r) (bn_meta r) (bn_fresh r) (bn_orc r) 1 1 in
      let (a, c) := (_ <- bench_client C IC r' ;; ret tt) (MkClient (fst w) (snd w) false) in
      (a, (c_index c, c_storage c)).

  (** ["compression_ratio"] in the report of a scalar quantizer of so many bits (here times 1000);
      quantization/scalar.py:204-236: only a trained one has the key. *)
  Definition scalar_ratio (bits : Z) (q : scalarq) : option Z :=
    if negb (sq_init q) then None
    else if sq_trained q then Some (32000 / bits)%Z else None.

  (** Likewise of a product quantizer; quantization/product.py:219-262.  The value is left open. *)
  Definition product_ratio (value : Z) (q : productq F) : option Z :=
    if negb (pq_init q) then None
    else if pq_trained q then Some value else None.

  (** [benchmark_quantization]; benchmark.py:148-216: the baseline, then the four quantizers in
      order.  [r i] is what round [i] works on, [x] the ratio a product quantizer would report. *)
  Definition bench_quantization (r : nat -> bench F Mt Orc) (x : Z) : M (X * S) (list Z) :=
    bench_baseline (r 0) ;;;
    query <- first_row (bn_rows (r 0)) ;;
    a <- bench_round scalar_component (scalar_ratio 4) scalar_new (r 1) query ;;
    b <- bench_round scalar_component (scalar_ratio 8) scalar_new (r 2) query ;;
    c <- bench_round scalar_component (scalar_ratio 16) scalar_new (r 3) query ;;
    d <- bench_round product_component (product_ratio x) product_new (r 4) query ;;
    ret [1000%Z; a; b; c; d].

  (** [run_benchmarks]; benchmark.py:294-329: the four comparisons, then the results file.  The
      state beside the database is the list of result files; the comparisons of backends and of
      indexes ([before]) and of sizes ([after]) are left open: they write no results file. *)
  Definition run_all {W} (before after : M W unit) (quantization : M (X * S) (list Z))
      (report : list Z) : M (W * (X * S) * list (list Z)) unit :=
    zoom (fun s => fst (fst s)) (fun w s => (w, snd (fst s), snd s)) before ;;;
    _ <- zoom (fun s => snd (fst s)) (fun w s => (fst (fst s), w, snd s)) quantization ;;
    zoom (fun s => fst (fst s)) (fun w s => (w, snd (fst s), snd s)) after ;;;
    modify (fun s => (fst s, snd s ++ [report])).

  (** ... with the comparison of quantizers as it is; benchmark.py:307-318. *)
  Definition run_benchmarks {W} (before after : M W unit) (r : nat -> bench F Mt Orc) (x : Z)
      (report : list Z) : M (W * (X * S) * list (list Z)) unit :=
    run_all before after (bench_quantization r x) report.
End Quant.
