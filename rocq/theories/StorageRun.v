(** The three backends behind the common interface of /repo/src/valori/storage/base.py:11-110,
    and the execution of a history of calls. *)

From Coq Require Import List Arith ZArith NArith Bool.
From Verif Require Import PyBase Payload StorageModel StorageSpec.
Import ListNotations.
Open Scope py_scope.

(** [StorageBackend]; base.py:11-110.  [sc_stats] keeps the count and, where reported, the
    bytes of [get_stats()]; [sc_reopen] is dropping the object and constructing it again. *)
Record storage_class (S V Mt : Type) : Type := {
  sc_init : M S unit;
  sc_store : pystr -> V -> option Mt -> M S bool;
  sc_retrieve : pystr -> M S (option (V * option Mt));
  sc_delete : pystr -> M S bool;
  sc_update : pystr -> V -> option Mt -> M S bool;
  sc_list : option Z -> M S (list pystr);
  sc_stats : M S (option (Z * option N));
  sc_close : M S unit;
  sc_reopen : S -> S
}.
Arguments sc_init {S V Mt} _.
Arguments sc_store {S V Mt} _ _ _ _.
Arguments sc_retrieve {S V Mt} _ _.
Arguments sc_delete {S V Mt} _ _.
Arguments sc_update {S V Mt} _ _ _ _.
Arguments sc_list {S V Mt} _ _.
Arguments sc_stats {S V Mt} _.
Arguments sc_close {S V Mt} _.
Arguments sc_reopen {S V Mt} _ _.

Section Classes.
  Context {V Mt : Type} `{Payload V Mt} `{Unicode}.

  (** memory.py:14-174 *)
  Definition mem_class : storage_class (mem V Mt) V Mt := {|
    sc_init := mem_initialize;
    sc_store := mem_store;
    sc_retrieve := mem_retrieve;
    sc_delete := mem_delete;
    sc_update := mem_update;
    sc_list := mem_list;
    sc_stats := (st <- mem_get_stats ;;
                 ret (match st with
                      | Some x => Some (ms_count x, Some (ms_bytes x))
                      | None => None
                      end));
    sc_close := mem_close;
    sc_reopen := fun _ => mem_new
  |}.

  (** disk.py:16-224 *)
  Definition disk_class (dirorder : list pystr -> list pystr)
    : storage_class (disk V Mt) V Mt := {|
    sc_init := disk_initialize dirorder;
    sc_store := disk_store dirorder;
    sc_retrieve := disk_retrieve;
    sc_delete := disk_delete dirorder;
    sc_update := disk_update;
    sc_list := disk_list dirorder;
    sc_stats := (st <- disk_get_stats ;;
                 ret (match st with Some n => Some (n, None) | None => None end));
    sc_close := disk_close;
    sc_reopen := fun s => disk_new (d_vectors s) (d_metadata s)
  |}.

  (** hybrid.py:18-185; the count is the nested disk count. *)
  Definition hybrid_class (dirorder : list pystr -> list pystr)
    : storage_class (hybrid V Mt) V Mt := {|
    sc_init := hybrid_initialize dirorder;
    sc_store := hybrid_store dirorder;
    sc_retrieve := hybrid_retrieve;
    sc_delete := hybrid_delete dirorder;
    sc_update := hybrid_update;
    sc_list := hybrid_list dirorder;
    sc_stats := (st <- hybrid_get_stats ;;
                 ret (match st with
                      | Some (_, Some n) => Some (n, None)
                      | _ => None
                      end));
    sc_close := hybrid_close;
    sc_reopen := fun s => hybrid_new (h_limit s) (d_vectors (h_disk s)) (d_metadata (h_disk s))
  |}.
End Classes.

Section Run.
  Context {S V Mt : Type} (C : storage_class S V Mt).

  (** Turn a method outcome into an observation. *)
  Definition obs {A} (f : A -> sret V Mt) (r : result A * S) : sret V Mt * S :=
    match r with
    | (Ok a, s) => (f a, s)
    | (Raise e, s) => (RExn e, s)
    end.

  (** Dispatch one call of a history to the backend; base.py:24-110. *)
  Definition sc_step (s : S) (o : sop V Mt) : sret V Mt * S :=
    match o with
    | OInit => obs (fun _ => RUnit) (sc_init C s)
    | OStore id v m => obs RBool (sc_store C id v m s)
    | ORetrieve id => obs RRec (sc_retrieve C id s)
    | ODelete id => obs RBool (sc_delete C id s)
    | OUpdate id v m => obs RBool (sc_update C id v m s)
    | OList limit => obs RIds (sc_list C limit s)
    | OStats => obs RStats (sc_stats C s)
    | OClose => obs (fun _ => RUnit) (sc_close C s)
    | OReopen => (RUnit, sc_reopen C s)
    end.

  (** Run a history of calls, collecting the answers. *)
  Fixpoint sc_run (s : S) (ops : list (sop V Mt)) : list (sret V Mt) * S :=
    match ops with
    | [] => ([], s)
    | o :: ops' =>
        let (r, s') := sc_step s o in
        let (rs, s'') := sc_run s' ops' in
        (r :: rs, s'')
    end.
End Run.

(** The state after a history. *)
Definition after {S V Mt} (C : storage_class S V Mt) (s : S) (ops : list (sop V Mt)) : S :=
  snd (sc_run C s ops).

(** The answers of a history. *)
Definition answers {S V Mt} (C : storage_class S V Mt) (s : S) (ops : list (sop V Mt))
    : list (sret V Mt) := fst (sc_run C s ops).

(** The answer of [retrieve id] in a state. *)
Definition read {S V Mt} (C : storage_class S V Mt) (s : S) (id : pystr)
    : result (option (V * option Mt)) := fst (sc_retrieve C id s).
