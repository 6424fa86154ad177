(** Two of the example programs, /repo/examples/basic_usage.py and the quantizer comparison of
    /repo/examples/advanced_quantization.py, as programs over the client.  Printing is left out;
    the random vectors are any vectors. *)

From Coq Require Import List Arith ZArith NArith Bool.
From Verif Require Import PyBase Payload StorageModel StorageSpec StorageRun Num ClientModel DbSpec ClientRun.
From Verif Require Import XReal ScalarModel ProductModel FullClientModel BenchModel.
Import ListNotations.
Open Scope py_scope.

(** What basic_usage.py prints of the database; lines 51, 60-63, 72, 76-78, 84, 88-90, 97. *)
Record basic_report (F Mt : Type) : Type := MkBasic {
  ba_inserted : list pystr;
  ba_found : list (hit F Mt);
  ba_updated : bool;
  ba_found_after_update : list (hit F Mt);
  ba_deleted : bool;
  ba_found_after_deletion : list (hit F Mt);
  ba_count : Z }.
Arguments MkBasic {F Mt} _ _ _ _ _ _ _.
Arguments ba_inserted {F Mt} _.
Arguments ba_found {F Mt} _.
Arguments ba_updated {F Mt} _.
Arguments ba_found_after_update {F Mt} _.
Arguments ba_deleted {F Mt} _.
Arguments ba_found_after_deletion {F Mt} _.
Arguments ba_count {F Mt} _.

Section Basic.
  Context {X S F Mt Orc : Type}.
  Context (C : storage_class S (list F) Mt) (IC : index_class X S F Mt Orc).

  (** [main]; basic_usage.py:18-106: insert, search, update the first vector, search, delete the
      first five, search, report, close. *)
  Definition basic_usage (rows : list (list F)) (meta : option (list (option Mt)))
      (fresh : nat -> pystr) (orc : nat -> Orc) (new_vector : list F) (new_meta : option Mt)
      : M (client X S) (basic_report F Mt) :=
    cl_initialize C IC (orc 0) [] ;;;
    inserted_ids <- cl_insert IC (orc 1) fresh (Mat rows) meta ;;
    query_vector <- first_row rows ;;
    results1 <- cl_search IC (orc 2) (Vec query_vector) 5 ;;
    vector_id <- match inserted_ids with [] => raise EIndexRange | i :: _ => ret i end ;;
    success1 <- cl_update IC (orc 3) vector_id new_vector new_meta ;;
    results2 <- cl_search IC (orc 4) (Vec query_vector) 3 ;;
    success2 <- cl_delete IC (firstn 5 inserted_ids) ;;
    results3 <- cl_search IC (orc 5) (Vec query_vector) 3 ;;
    stats <- cl_stats C IC ;;
    count <- match fst stats with Some n => ret n | None => raise EKey end ;;
    cl_close C IC [] ;;;
    ret (MkBasic inserted_ids results1 success1 results2 success2 results3 count).
End Basic.

Section Quantized.
  Context {X S F Mt Orc P : Type}.
  Context (C : storage_class S (list F) Mt) (IC : index_class X S F Mt Orc) (CP : component P).

  (** One client with a quantizer: initialise, insert, search, print
      [stats["quantization"]["compression_ratio"]]; advanced_quantization.py:37-48, 53-64, 160-174.
      [ratio] answers the last, [None] when there is no such key. *)
  Definition quantized_client {Q} (CQ : component Q) (ratio : Q -> option Z) (rows : list (list F))
      (meta : option (list (option Mt))) (fresh : nat -> pystr) (orc : nat -> Orc) (query : list F)
      : M (fclient X S Q P) Z :=
    fl_initialize C IC CQ CP (orc 0) ;;;
    _ <- fl_insert IC (orc 1) fresh (Mat rows) meta ;;
    _ <- fl_search IC (orc 2) (Vec query) 5 ;;
    _ <- fl_stats C IC CQ CP ;;
    c <- get ;;
    match fc_quant c with
    | Some q => match ratio q with Some x => ret x | None => raise EKey end
    | None => raise EKey
    end.

  (** The clients of the example are new objects over new backends; advanced_quantization.py:37-41,
      53-57, 160-164: whatever happens to one is not seen by the others. *)
  Definition on_new {W W' A} (m : M W A) (w : W) : M W' A := fun w' => (fst (m w), w').

  (** [compare_quantization_methods]; advanced_quantization.py:16-84, up to the ratios it prints:
      without a quantizer, with a scalar one of 8 bits, with a product quantizer (whose ratio would
      be [x]).  [rest] stands for lines 67-84. *)
  Definition compare_methods {W} (s0 : S) (rows : list (list F)) (meta : option (list (option Mt)))
      (fresh : nat -> pystr) (orc : nat -> Orc) (query : list F) (x : Z) (rest : M W unit) : M W unit :=
    on_new (cl_initialize C IC (orc 0) [] ;;;
            _ <- cl_insert IC (orc 1) fresh (Mat rows) meta ;;
            _ <- cl_search IC (orc 2) (Vec query) 5 ;;
            cl_stats C IC) (cl_new IC s0) ;;;
    on_new (quantized_client scalar_component (scalar_ratio 8) rows meta fresh orc query)
      (fl_new IC s0 (Some scalar_new) None) ;;;
    on_new (quantized_client (product_component (F := F)) (product_ratio x) rows meta fresh orc query)
      (fl_new IC s0 (Some product_new) None) ;;;
    rest.

  (** [main]; advanced_quantization.py:183-212: the three demonstrations, the last two left open;
      the state is whatever they work on and the lines "... completed!" printed. *)
  Definition quantization_example {W} (s0 : S) (rows : list (list F))
      (meta : option (list (option Mt))) (fresh : nat -> pystr) (orc : nat -> Orc) (x : Z)
      (rest others : M W unit) : M (W * nat) unit :=
    query <- first_row rows ;;
    zoom fst (fun w s => (w, snd s)) (compare_methods s0 rows meta fresh orc query x rest) ;;;
    zoom fst (fun w s => (w, snd s)) others ;;;
    modify (fun s => (fst s, 1 + snd s)).
End Quantized.
