(** [HybridStorage] statement by statement: which part of each method holds the lock, the disk
    backend's calls as file-system steps, and each call of the memory backend as one step (it has
    its own lock). *)

From Coq Require Import List Arith ZArith NArith Bool.
From Verif Require Import PyBase Payload StorageModel StorageSpec StepModel ConcModel LockModel.
Import ListNotations.
Open Scope py_scope.

Section Hybrid.
  Context {V Mt : Type} `{Payload V Mt} `{Unicode}.
  Context (dirorder : list pystr -> list pystr).

  (** A call on [self.disk_storage], step by step; hybrid.py:35. *)
  Fixpoint disk_steps {A} (p : prog (disk V Mt) A) : prog (hybrid V Mt) A :=
    match p with
    | Return r => Return r
    | Step f => Step (fun s => match f (h_disk s) with
                               | (p', d) => (disk_steps p', MkHybrid (h_memory s) d (h_limit s) (h_init s))
                               end)
    end.

  (** [HybridStorage._evict_from_memory]; hybrid.py:181-185. *)
  Definition evict_steps : prog (hybrid V Mt) unit :=
    vector_ids <~ atomic (on_mem (mem_list (Some 1%Z))) ;;
    match vector_ids with
    | [] => Return (Ok tt)
    | first :: _ => atomic (on_mem (mem_delete first)) ;~ Return (Ok tt)
    end.

  (** hybrid.py:66-75 and 98-107; the limit never changes and is read with the count. *)
  Definition cache_steps (id : pystr) (v : V) (m : option Mt) : prog (hybrid V Mt) unit :=
    room <~ atomic (st <- on_mem mem_get_stats ;;
                    s <- get ;;
                    ret ((match st with Some st => ms_count st | None => 0%Z end) <? h_limit s)%Z) ;;
    (if room then Return (Ok tt) else evict_steps) ;~
    atomic (on_mem (mem_store id v m)) ;~
    Return (Ok tt).

  (** The statements after the tests: hybrid.py:41-48, 61-77, 87-109, 119-125, 137-146, 156,
      163-172, 174-179.  [disk_storage.retrieve_vector], which only reads, is one step. *)
  Definition hybrid_body (o : sop V Mt) : prog (hybrid V Mt) (sret V Mt) :=
    match o with
    | OInit =>
        pwrap EStorage
          (atomic (on_mem mem_initialize) ;~ atomic (on_disk (disk_initialize dirorder)) ;~
           atomic (modify (fun s => MkHybrid (h_memory s) (h_disk s) (h_limit s) true)) ;~
           Return (Ok RUnit))
    | OClose | OReopen =>
        atomic (on_mem mem_close) ;~ atomic (on_disk disk_close) ;~
        atomic (modify (fun s => MkHybrid (h_memory s) (h_disk s) (h_limit s) false)) ;~
        Return (Ok RUnit)
    | OStore id v m =>
        pwrap EStorage
          (b <~ disk_steps (store_steps dirorder id v m) ;;
           (if b then cache_steps id v m else Return (Ok tt)) ;~
           Return (Ok (RBool b)))
    | ORetrieve id =>
        pwrap EStorage
          (r <~ atomic (on_mem (mem_retrieve id)) ;;
           match r with
           | Some x => Return (Ok (RRec (Some x)))
           | None =>
               r' <~ atomic (on_disk (disk_retrieve id)) ;;
               match r' with
               | Some (v, m) => cache_steps id v m ;~ Return (Ok (RRec (Some (v, m))))
               | None => Return (Ok (RRec None))
               end
           end)
    | ODelete id =>
        pwrap EStorage
          (a <~ atomic (on_mem (mem_delete id)) ;;
           b <~ disk_steps (delete_steps dirorder id) ;;
           Return (Ok (RBool (a || b))))
    | OUpdate id v m =>
        pwrap EStorage
          (b <~ disk_steps (update_steps id v m) ;;
           (if b then atomic (on_mem (mem_update id v m)) ;~ Return (Ok tt) else Return (Ok tt)) ;~
           Return (Ok (RBool b)))
    | OList limit => ids <~ atomic (on_disk (disk_list dirorder limit)) ;; Return (Ok (RIds ids))
    | OStats =>
        a <~ atomic (on_mem mem_get_stats) ;;
        b <~ atomic (on_disk disk_get_stats) ;;
        Return (Ok (RStats (match b with Some n => Some (n, None) | None => None end)))
    end.

  (** The tests outside of the lock; hybrid.py:54-58, 84-85, 116-117, 134-135, 153-154, 160-161. *)
  Definition hybrid_early (o : sop V Mt) (s : hybrid V Mt) : option (sret V Mt) :=
    match o with
    | OInit | OClose | OReopen => None
    | OStore [] _ _ => Some (RBool false)
    | OStats => if h_init s then None else Some (RStats None)
    | _ => if h_init s then None else Some (RExn EStorage)
    end.

  (** [with self.lock]: hybrid.py:61, 88, 120, 138, 176; not in [initialize], [list_vectors] and
      [get_stats]. *)
  Definition hybrid_locked (o : sop V Mt) : bool :=
    match o with
    | OInit | OList _ | OStats => false
    | _ => true
    end.

  Definition hybrid_object : object (hybrid V Mt) V Mt :=
    MkObject hybrid_early hybrid_locked hybrid_body.
End Hybrid.
