(** [MemoryStorage] used by several threads: every statement is a step of its own, the lock is
    explicit, and a schedule says which thread moves. *)

From Coq Require Import List Arith ZArith NArith Lia Bool.
From Verif Require Import PyBase Payload StorageModel StorageSpec StepModel.
Import ListNotations.
Open Scope py_scope.

(** Replace the value of a function at one argument. *)
Definition upd {A} (f : nat -> A) (t : nat) (x : A) : nat -> A :=
  fun u => if Nat.eqb u t then x else f u.

Section Conc.
  Context {V Mt : Type} `{Payload V Mt}.
  Let mem := mem V Mt.

  (** Single assignments; memory.py:34-38 and 170-174. *)
  Definition clear_vectors : M mem unit :=
    modify (fun s => MkMem [] (m_metadata s) (m_count s) (m_usage s) (m_init s)).
  Definition clear_metadata : M mem unit :=
    modify (fun s => MkMem (m_vectors s) [] (m_count s) (m_usage s) (m_init s)).
  Definition zero_count : M mem unit :=
    modify (fun s => MkMem (m_vectors s) (m_metadata s) 0 (m_usage s) (m_init s)).
  Definition zero_usage : M mem unit :=
    modify (fun s => MkMem (m_vectors s) (m_metadata s) (m_count s) 0 (m_init s)).
  Definition set_flag (b : bool) : M mem unit :=
    modify (fun s => MkMem (m_vectors s) (m_metadata s) (m_count s) (m_usage s) b).

  (** [id in self.vectors]; memory.py:78,92,119. *)
  Definition contains (id : pystr) : M mem bool := s <- get ;; ret (dmem id (m_vectors s)).
  (** [self.vectors[id].copy()]; memory.py:81. *)
  Definition fetch_vector (id : pystr) : M mem V :=
    s <- get ;; match dget id (m_vectors s) with Some v => ret v | None => raise EKey end.
  (** [self.metadata.get(id)]; memory.py:82. *)
  Definition fetch_metadata (id : pystr) : M mem (option Mt) :=
    s <- get ;; ret (dget id (m_metadata s)).
  (** [del self.vectors[id]], [self.metadata.pop(id, None)]; memory.py:93-94. *)
  Definition del_vector (id : pystr) : M mem unit :=
    modify (fun s => MkMem (ddel id (m_vectors s)) (m_metadata s) (m_count s) (m_usage s) (m_init s)).
  Definition pop_metadata (id : pystr) : M mem unit :=
    modify (fun s => MkMem (m_vectors s) (ddel id (m_metadata s)) (m_count s) (m_usage s) (m_init s)).

  (** The part of each method that runs inside [with self.lock], statement by statement:
      memory.py:33-38, 50-68, 77-83, 91-106, 118-138, 147-151, 158-165, 169-174.  ([OReopen], a
      process restart, is not a method.) *)
  Definition body (o : sop V Mt) : prog mem (sret V Mt) :=
    match o with
    | OInit =>
        atomic clear_vectors ;~ atomic clear_metadata ;~ atomic zero_count ;~
        atomic zero_usage ;~ atomic (set_flag true) ;~ Return (Ok RUnit)
    | OClose | OReopen =>
        atomic clear_vectors ;~ atomic clear_metadata ;~ atomic zero_count ;~
        atomic zero_usage ;~ atomic (set_flag false) ;~ Return (Ok RUnit)
    | OStore id v m =>
        pwrap EStorage
          (atomic (mem_write_vec id v) ;~ atomic (mem_write_meta id m) ;~
           atomic mem_set_count ;~ atomic mem_set_usage ;~ Return (Ok (RBool true)))
    | ORetrieve id =>
        b <~ atomic (contains id) ;;
        if b
        then v <~ atomic (fetch_vector id) ;;
             m <~ atomic (fetch_metadata id) ;;
             Return (Ok (RRec (Some (v, m))))
        else Return (Ok (RRec None))
    | ODelete id =>
        pwrap EStorage
          (b <~ atomic (contains id) ;;
           if b
           then atomic (del_vector id) ;~ atomic (pop_metadata id) ;~ atomic mem_set_count ;~
                atomic mem_set_usage ;~ Return (Ok (RBool true))
           else Return (Ok (RBool false)))
    | OUpdate id v m =>
        pwrap EStorage
          (b <~ atomic (contains id) ;;
           if b
           then atomic (mem_write_vec id v) ;~ atomic (mem_write_meta id m) ;~
                atomic mem_set_usage ;~ Return (Ok (RBool true))
           else Return (Ok (RBool false)))
    | OList limit =>
        ids <~ atomic (s <- get ;; ret (dkeys (m_vectors s))) ;;
        Return (Ok (RIds (match limit with Some k => slice_to k ids | None => ids end)))
    | OStats =>
        n <~ atomic (s <- get ;; ret (m_count s)) ;;
        b <~ atomic (s <- get ;; ret (m_usage s)) ;;
        Return (Ok (RStats (Some (n, Some b))))
    end.

  (** The test made before the lock is taken, outside of it: the answer if the method returns
      there; memory.py:43-47, 74-75, 87-88, 114-115, 144-145, 155-156.  [initialize] and [close]
      test nothing. *)
  Definition early (o : sop V Mt) (s : mem) : option (sret V Mt) :=
    match o with
    | OInit | OClose | OReopen => None
    | OStore [] _ _ => Some (RBool false)
    | OStats => if m_init s then None else Some (RStats None)
    | _ => if m_init s then None else Some (RExn EStorage)
    end.

  (** Where a thread is: between calls; called; past the test and waiting for the lock; inside
      the lock with the rest of the body; out of the lock with the answer. *)
  Inductive tstate : Type :=
  | TIdle
  | TCalled (o : sop V Mt)
  | TWaiting (o : sop V Mt)
  | TInside (p : prog mem (sret V Mt))
  | TAnswer (r : sret V Mt).

  (** What an observer sees: calls and returns. *)
  Inductive event : Type :=
  | Inv (t : nat) (o : sop V Mt)
  | Res (t : nat) (r : sret V Mt).

  (** The object, the owner of its lock, and for each thread where it is and which calls it will
      still make. *)
  Record config : Type := MkConf {
    c_mem : mem;
    c_lock : option nat;
    c_threads : nat -> tstate;
    c_todo : nat -> list (sop V Mt)
  }.

  (** The answer of a body that has ended. *)
  Definition answer (r : result (sret V Mt)) : sret V Mt :=
    match r with Ok x => x | Raise e => RExn e end.

  (** One move of thread [t].  A thread that finds the lock taken does not move. *)
  Definition move (t : nat) (c : config) : list event * config :=
    let goto x := MkConf (c_mem c) (c_lock c) (upd (c_threads c) t x) (c_todo c) in
    match c_threads c t with
    | TIdle =>
        match c_todo c t with
        | [] => ([], c)
        | o :: os => ([Inv t o], MkConf (c_mem c) (c_lock c) (upd (c_threads c) t (TCalled o))
                                        (upd (c_todo c) t os))
        end
    | TCalled o =>
        match early o (c_mem c) with
        | Some r => ([], goto (TAnswer r))
        | None => ([], goto (TWaiting o))
        end
    | TWaiting o =>
        match c_lock c with
        | Some _ => ([], c)
        | None => ([], MkConf (c_mem c) (Some t) (upd (c_threads c) t (TInside (body o))) (c_todo c))
        end
    | TInside (Step f) =>
        match f (c_mem c) with
        | (p, s) => ([], MkConf s (c_lock c) (upd (c_threads c) t (TInside p)) (c_todo c))
        end
    | TInside (Return r) =>
        ([], MkConf (c_mem c) None (upd (c_threads c) t (TAnswer (answer r))) (c_todo c))
    | TAnswer r => ([Res t r], goto TIdle)
    end.

  (** The history of a schedule. *)
  Fixpoint moves (sched : list nat) (c : config) : list event * config :=
    match sched with
    | [] => ([], c)
    | t :: r =>
        let (e1, c1) := move t c in
        let (e2, c2) := moves r c1 in
        (e1 ++ e2, c2)
    end.

  (** All threads between calls, the lock free. *)
  Definition fresh_config (s : mem) (todo : nat -> list (sop V Mt)) : config :=
    MkConf s None (fun _ => TIdle) todo.
End Conc.
