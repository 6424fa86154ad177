(** The interface of an index and the client that drives it.

    Sources: /repo/src/valori/indices/base.py:13-110 and /repo/src/valori/client.py:16-138. *)

From Coq Require Import List Arith ZArith NArith Bool.
From Verif Require Import PyBase Payload StorageModel StorageSpec StorageRun Num.
Import ListNotations.
Open Scope py_scope.

(** One element of a search result: {"id", "distance", "metadata"}; flat.py:147-153. *)
Record hit (F Mt : Type) : Type := MkHit { h_id : pystr; h_dist : F; h_meta : option Mt }.
Arguments MkHit {F Mt} _ _ _.
Arguments h_id {F Mt} _.
Arguments h_dist {F Mt} _.
Arguments h_meta {F Mt} _.

(** [Index]; indices/base.py:13-110.  A method acts on the index object [X] together with the
    storage object [S] it was given.  [Orc] carries whatever the call draws from random number
    generators and libraries; [fresh i] is the uuid drawn for the i-th row. [ix_count] is
    get_stats()["vector_count"], [None] for the not-initialised answer.  [ix_new] is the freshly
    constructed object. *)
Record index_class (X S F Mt Orc : Type) : Type := {
  ix_new : X;
  ix_init : Orc -> M (X * S) unit;
  ix_insert : Orc -> (nat -> pystr) -> ndarray F -> option (list (option Mt)) ->
              M (X * S) (list pystr);
  ix_search : Orc -> ndarray F -> Z -> M (X * S) (list (hit F Mt));
  ix_delete : list pystr -> M (X * S) bool;
  ix_update : Orc -> pystr -> list F -> option Mt -> M (X * S) bool;
  ix_count : X -> option Z;
  ix_close : M (X * S) unit
}.
Arguments ix_new {X S F Mt Orc} _.
Arguments ix_init {X S F Mt Orc} _ _.
Arguments ix_insert {X S F Mt Orc} _ _ _ _ _.
Arguments ix_search {X S F Mt Orc} _ _ _ _.
Arguments ix_delete {X S F Mt Orc} _ _.
Arguments ix_update {X S F Mt Orc} _ _ _ _ _.
Arguments ix_count {X S F Mt Orc} _ _.
Arguments ix_close {X S F Mt Orc} _.

(** [metadata[i] if metadata and i < len(metadata) else None]; flat.py:67-69, hnsw.py:82-84,
    ivf.py:75-77. *)
Definition row_meta {Mt} (metadata : option (list (option Mt))) (i : nat) : option Mt :=
  match metadata with
  | None => None
  | Some l => if negb (Nat.eqb (length l) 0) && Nat.ltb i (length l)
              then nth i l None else None
  end.

(** A call on the storage object from inside an index method. *)
Definition on_sb {X S A} (m : M S A) : M (X * S) A :=
  zoom snd (fun t w => (fst w, t)) m.

(** Assignment to the index object's fields. *)
Definition set_ix {X S} (f : X -> X) : M (X * S) unit := modify (fun w => (f (fst w), snd w)).

(** Reading the index object's fields. *)
Definition get_ix {X S} : M (X * S) X := fun w => (Ok (fst w), w).

(** Fields of [VectorDBClient]; client.py:24-47.  The optional quantizer and persistence manager
    take no part in any data operation (client.py:66-121 never call them), so only the outcome of
    their [initialize] and [close] matters. *)
Record client (X S : Type) : Type := MkClient { c_index : X; c_storage : S; c_init : bool }.
Arguments MkClient {X S} _ _ _.
Arguments c_index {X S} _.
Arguments c_storage {X S} _.
Arguments c_init {X S} _.

Section Client.
  Context {X S F Mt Orc : Type}.
  Context (C : storage_class S (list F) Mt) (IC : index_class X S F Mt Orc).

  (** Calls on [self.index] and on [self.storage_backend]. *)
  Definition on_index {A} : M (X * S) A -> M (client X S) A :=
    zoom (fun c => (c_index c, c_storage c))
         (fun w c => MkClient (fst w) (snd w) (c_init c)).
  Definition on_storage {A} : M S A -> M (client X S) A :=
    zoom c_storage (fun t c => MkClient (c_index c) t (c_init c)).

  (** [VectorDBClient.initialize]; client.py:49-64.  [extra] are the outcomes of the optional
      components' [initialize], in order. *)
  Definition cl_initialize (o : Orc) (extra : list (result unit)) : M (client X S) unit :=
    wrap EValori
      (on_storage (sc_init C) ;;;
       on_index (ix_init IC o) ;;;
       forM extra (fun r => lift r) ;;;
       modify (fun c => MkClient (c_index c) (c_storage c) true)).

  (** The guard of client.py:70-71, 79-80, 86-87, 95-96, 102-103. *)
  Definition guarded {A} (m : M (client X S) A) : M (client X S) A :=
    c <- get ;; if negb (c_init c) then raise EValori else m.

  (** [VectorDBClient.insert]; client.py:66-73. *)
  Definition cl_insert o fresh arr metadata : M (client X S) (list pystr) :=
    guarded (on_index (ix_insert IC o fresh arr metadata)).

  (** [VectorDBClient.search]; client.py:75-81. *)
  Definition cl_search o q k : M (client X S) (list (hit F Mt)) :=
    guarded (on_index (ix_search IC o q k)).

  (** [VectorDBClient.delete]; client.py:83-88. *)
  Definition cl_delete ids : M (client X S) bool :=
    guarded (on_index (ix_delete IC ids)).

  (** [VectorDBClient.update]; client.py:90-98. *)
  Definition cl_update o id v m : M (client X S) bool :=
    guarded (on_index (ix_update IC o id v m)).

  (** [VectorDBClient.get_stats]; client.py:100-117, reduced to the two vector counts. *)
  Definition cl_stats : M (client X S) (option Z * option Z) :=
    guarded (st <- on_storage (sc_stats C) ;;
             c <- get ;;
             ret (ix_count IC (c_index c),
                  match st with Some (n, _) => Some n | None => None end)).

  (** [VectorDBClient.close]; client.py:119-130.  [extra] are the outcomes of the optional
      components' [close]; an exception there skips the rest. *)
  Definition cl_close (extra : list (result unit)) : M (client X S) unit :=
    forM extra (fun r => lift r) ;;;
    on_index (ix_close IC) ;;;
    on_storage (sc_close C) ;;;
    modify (fun c => MkClient (c_index c) (c_storage c) false).

  (** A new process: both objects are dropped and constructed again. *)
  Definition cl_reopen (c : client X S) : client X S :=
    MkClient (ix_new IC) (sc_reopen C (c_storage c)) false.
End Client.
