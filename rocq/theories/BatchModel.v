(** Model of /repo/src/valori/utils/batch_manager.py: [BatchManager], and of [batch_search] of
    /repo/src/valori/utils/helpers.py.

    Times, the progress line printed to the terminal (batch_manager.py:254-275) and the message
    printed for a failed batch (line 111) are not modelled: they raise nothing and change
    nothing.  A matrix of vectors is the list of its rows. *)

From Coq Require Import List Arith ZArith Bool.
From Verif Require Import PyBase.
Import ListNotations.
Open Scope py_scope.

(** [range(0, n, step)], the head of the loops of batch_manager.py:83,139,201 and
    helpers.py:245.  A step of zero raises ValueError, a negative one gives nothing. *)
Definition range_from_zero (n : nat) (step : Z) : result (list nat) :=
  if (step =? 0)%Z then Raise EValue
  else if (step <? 0)%Z then Ok []
  else let s := Z.to_nat step in
       Ok (map (fun k => k * s)%nat (seq 0 ((n + s - 1) / s))).

(** [l[i : i + size]] for a start [i] of that range; batch_manager.py:84-85,140,204-205.  It is
    read only when the range is not empty, so [size] is positive. *)
Definition batch_of {A} (size : Z) (l : list A) (i : nat) : list A :=
  firstn (Z.to_nat size) (skipn i l).

Section Batch.
  (** The client and whatever the callbacks touch; a vector, a metadata dictionary, an id. *)
  Context {W V O I : Type}.

  (** The second argument of the error callback: the vectors of a batch
      (batch_manager.py:109), a query (line 155) or the dictionary of a batch (line 234). *)
  Inductive culprit : Type :=
  | CBatch (vs : list V)
  | CQuery (v : V)
  | CPart (vs : list V) (os : list O).

  (** The configuration of a [BatchManager]; batch_manager.py:38-41.  Callbacks may raise and
      may act on the world. *)
  Record manager : Type := MkManager {
    b_size : Z;
    b_progress : option (nat -> nat -> M W unit);
    b_error : option (exn -> culprit -> M W unit)
  }.

  (** The counters of batch_manager.py:42-48. *)
  Record stats : Type := MkStats { s_total : nat; s_processed : nat; s_failed : nat }.

  (** [__init__] and [reset_stats]; batch_manager.py:42-48, 295-303. *)
  Definition no_stats : stats := MkStats 0 0 0.

  (** What a running method sees: the counters, what it has collected, and the world. *)
  Record run (B : Type) : Type := MkRun { r_stats : stats; r_out : list B; r_world : W }.
  Arguments MkRun {B} _ _ _.
  Arguments r_stats {B} _.
  Arguments r_out {B} _.
  Arguments r_world {B} _.

  (** The head of every method; batch_manager.py:77-80,133-136,194-197: the total is set, the
      other counters are left as they are, nothing is collected yet. *)
  Definition start {B} (n : nat) (r : run B) : run B :=
    MkRun (MkStats n (s_processed (r_stats r)) (s_failed (r_stats r))) [] (r_world r).

  (** Additions to the counters; batch_manager.py:91-93, 104-106. *)
  Definition add_processed {B} (n : nat) (r : run B) : run B :=
    MkRun (MkStats (s_total (r_stats r)) (s_processed (r_stats r) + n) (s_failed (r_stats r)))
          (r_out r) (r_world r).
  Definition add_failed {B} (n : nat) (r : run B) : run B :=
    MkRun (MkStats (s_total (r_stats r)) (s_processed (r_stats r)) (s_failed (r_stats r) + n))
          (r_out r) (r_world r).
  (** [all_ids.extend(...)], [all_results.extend(...)]. *)
  Definition extend {B} (l : list B) (r : run B) : run B :=
    MkRun (r_stats r) (r_out r ++ l) (r_world r).

  (** A call on the client or of a callback. *)
  Definition on_world {B A} (m : M W A) : M (run B) A :=
    zoom r_world (fun w r => MkRun (r_stats r) (r_out r) w) m.

  (** [try: m  except Exception as e: h(e)]. *)
  Definition try_except {S A} (m : M S A) (h : exn -> M S A) : M S A :=
    fun s => match m s with
             | (Ok a, s') => (Ok a, s')
             | (Raise e, s') => h e s'
             end.

  Context (b : manager).

  (** [if self.progress_callback: self.progress_callback(...)]; batch_manager.py:98-101. *)
  Definition report {B} : M (run B) unit :=
    match b_progress b with
    | None => ret tt
    | Some f => r <- get ;; on_world (f (s_processed (r_stats r)) (s_total (r_stats r)))
    end.

  (** [if self.error_callback: self.error_callback(e, what)]; batch_manager.py:108-109. *)
  Definition complain {B} (e : exn) (what : culprit) : M (run B) unit :=
    match b_error b with
    | None => ret tt
    | Some f => on_world (f e what)
    end.

  Section Insert.
    (** [client.insert]. *)
    Context (insert : list V -> list O -> M W (list I)).

    (** One turn of the loop; batch_manager.py:84-111. *)
    Definition insert_batch (vs : list V) (os : list O) : M (run I) unit :=
      try_except
        (batch_ids <- on_world (insert vs os) ;;
         modify (extend batch_ids) ;;;
         modify (add_processed (length vs)) ;;;
         report)
        (fun e =>
           modify (add_failed (length vs)) ;;;
           complain e (CBatch vs)).

    (** [batch_insert]; batch_manager.py:58-116. *)
    Definition batch_insert (vectors : list V) (metadata : list O) : M (run I) (list I) :=
      modify (start (length vectors)) ;;;
      starts <- lift (range_from_zero (length vectors) (b_size b)) ;;
      forM starts (fun i =>
        insert_batch (batch_of (b_size b) vectors i) (batch_of (b_size b) metadata i)) ;;;
      r <- get ;; ret (r_out r).

    (** The list of batches; batch_manager.py:199-208.  The batch_id of a batch is its position. *)
    Definition cut (vectors : list V) (metadata : list O) : result (list (list V * list O)) :=
      rbind (range_from_zero (length vectors) (b_size b)) (fun starts =>
        Ok (map (fun i => (batch_of (b_size b) vectors i, batch_of (b_size b) metadata i))
                starts)).

    (** The worker threads: [process_batch] (batch_manager.py:210-216) on the batches in the order [exec].
        Each insertion is one step here; the interleaving of two running insertions is not
        modelled. *)
    Fixpoint work (batches : list (list V * list O)) (exec : list nat)
        (done : list (nat * result (list I))) (w : W) : list (nat * result (list I)) * W :=
      match exec with
      | [] => (done, w)
      | j :: exec' =>
          match nth_error batches j with
          | None => work batches exec' done w
          | Some (vs, os) =>
              let (r, w') := insert vs os w in
              work batches exec' (done ++ [(j, r)]) w'
          end
      end.

    (** One turn of the loop over the completed futures; batch_manager.py:226-247. *)
    Definition collect (batches : list (list V * list O)) (done : list (nat * result (list I)))
        (j : nat) : M (run I) unit :=
      match nth_error batches j, dget j done with
      | Some (vs, os), Some (Raise error) =>
          modify (add_failed (length vs)) ;;;
          complain error (CPart vs os) ;;;
          report
      | Some (vs, os), Some (Ok batch_ids) =>
          modify (extend batch_ids) ;;;
          modify (add_processed (length batch_ids)) ;;;
          report
      | _, _ => ret tt
      end.

    (** [parallel_batch_insert]; batch_manager.py:175-252.  [exec] is the order in which the
        workers ran the batches, [completion] the order in which [as_completed] gave them; the
        collecting loop runs after the workers here.  [max_workers] only restricts [exec]. *)
    Definition parallel_batch_insert (exec completion : list nat)
        (vectors : list V) (metadata : list O) : M (run I) (list I) :=
      modify (start (length vectors)) ;;;
      batches <- lift (cut vectors metadata) ;;
      r <- get ;;
      let (done, w) := work batches exec [] (r_world r) in
      modify (fun r => MkRun (r_stats r) (r_out r) w) ;;;
      forM completion (collect batches done) ;;;
      r <- get ;; ret (r_out r).
  End Insert.

  Section Search.
    (** [client.search]; a result is a list of hits. *)
    Context {H : Type} (search : V -> Z -> M W (list H)).

    (** The inner loop; batch_manager.py:142-155.  [batch_results] is returned. *)
    Fixpoint search_each (k : Z) (queries : list V) : M (run (list H)) (list (list H)) :=
      match queries with
      | [] => ret []
      | query :: queries' =>
          results <- try_except (on_world (search query k))
                       (fun e => modify (add_failed 1) ;;; complain e (CQuery query) ;;; ret []) ;;
          rest <- search_each k queries' ;;
          ret (results :: rest)
      end.

    (** One turn of the outer loop; batch_manager.py:140-168. *)
    Definition search_batch (k : Z) (queries : list V) : M (run (list H)) unit :=
      batch_results <- search_each k queries ;;
      modify (extend batch_results) ;;;
      modify (add_processed (length queries)) ;;;
      report.

    (** [BatchManager.batch_search]; batch_manager.py:118-173. *)
    Definition batch_search (queries : list V) (k : Z) : M (run (list H)) (list (list H)) :=
      modify (start (length queries)) ;;;
      starts <- lift (range_from_zero (length queries) (b_size b)) ;;
      forM starts (fun i => search_batch k (batch_of (b_size b) queries i)) ;;;
      r <- get ;; ret (r_out r).
  End Search.
End Batch.

Arguments MkRun {W B} _ _ _.
Arguments r_stats {W B} _.
Arguments r_out {W B} _.
Arguments r_world {W B} _.
Arguments manager W V O : clear implicits.
Arguments culprit V O : clear implicits.

Section Helper.
  Context {W V H : Type} (search : V -> Z -> M W (list H)).

  (** The inner loop of helpers.py:248-250: the results of one batch, in order. *)
  Definition help_batch (k : Z) (batch : list V) : M W (list (list H)) :=
    mapM batch (fun query_vector => search query_vector k).

  (** [batch_search]; helpers.py:228-252.  The results of the batches, joined. *)
  Definition help_search (size : Z) (queries : list V) (k : Z) : M W (list (list H)) :=
    starts <- lift (range_from_zero (length queries) size) ;;
    all_results <- mapM starts (fun i => help_batch k (batch_of size queries i)) ;;
    ret (concat all_results).
End Helper.
