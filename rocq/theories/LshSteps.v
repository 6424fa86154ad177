(** [LSHIndex.add] cut into the statements between which another thread can come in.  The class
    has no lock; [BatchManager.parallel_batch_insert] (utils/batch_manager.py:175-250) calls it
    from a pool of threads. *)

From Coq Require Import List Arith ZArith NArith Bool.
From Verif Require Import PyBase PyMore Payload Num LshModel StepModel.
Import ListNotations.
Open Scope py_scope.

(** [for x in l: f(x)] and [[f(x) for x in l]] over step programs. *)
Fixpoint pforM {S A} (l : list A) (f : A -> prog S unit) : prog S unit :=
  match l with
  | [] => Return (Ok tt)
  | a :: r => f a ;~ pforM r f
  end.

Fixpoint pmapM {S A B} (l : list A) (f : A -> prog S B) : prog S (list B) :=
  match l with
  | [] => Return (Ok [])
  | a :: r => b <~ f a ;; bs <~ pmapM r f ;; Return (Ok (b :: bs))
  end.

(** Any number of threads, each inside one call: a schedule names the thread of each step (a
    thread that has finished does nothing). *)
Fixpoint threads {S A} (sched : list nat) (ps : nat -> prog S A) (s : S)
    : (nat -> prog S A) * S :=
  match sched with
  | [] => (ps, s)
  | t :: r =>
      match ps t with
      | Return _ => threads r ps s
      | Step f => match f s with
                  | (p', s') => threads r (fun u => if Nat.eqb u t then p' else ps u) s'
                  end
      end
  end.

Section LshSteps.
  Context {F Mt : Type} `{Num F} `{Payload (list F) Mt}.
  Context (n_tables hash_size n_proj : nat) (empty : Mt).
  Notation lshi := (lsh F Mt).

  (** Reading a field. *)
  Definition read {A} (f : lshi -> A) : prog lshi A := atomic (x <- get ;; ret (f x)).

  (** The loop lsh.py:113-114, one step per table (the defaultdict creates the missing list and
      [append] extends it without giving up the interpreter lock). *)
  Definition put_steps (codes : list (list bool)) (id : Z) : prog lshi unit :=
    pforM (enumerate codes) (fun '(t, c) => atomic (on_table t (bucket_add c id))).

  (** One iteration of lsh.py:100-116.  [self._next_id += 1] reads the field again before it
      writes it. *)
  Definition add_one_steps (vector : list F) (m : option Mt) : prog lshi Z :=
    vector_id <~ read l_next ;;
    n <~ read l_next ;;
    atomic (modify (lset_next (n + 1))) ;~
    atomic (modify (fun x => lset_vectors (l_vectors x ++ [Some vector]) x)) ;~
    atomic (d <- lift (copy_meta m) ;;
            modify (fun x => lset_metadata (l_metadata x ++ [Some d]) x)) ;~
    hash_codes <~ atomic (lsh_hash_vector n_tables hash_size n_proj vector) ;;
    put_steps hash_codes vector_id ;~
    Return (Ok vector_id).

  (** [_generate_projections]; lsh.py:302-311 (it reads [self.dimension]; both fields are
      assigned in one step here). *)
  Definition generate_step (o : lsh_orc F) : prog lshi unit :=
    atomic (x <- get ;; match l_dim x with
                        | Some d => lsh_generate o d
                        | None => raise EAssert
                        end).

  (** [add]; lsh.py:65-118, for a matrix of vectors.  The validation loop (lsh.py:95-96) only
      reads and is one step. *)
  Definition add_steps (o : lsh_orc F) (rows : list (list F)) (metadata : list (option Mt))
      : prog lshi (list Z) :=
    opened <~ read l_init ;;
    if negb opened then Return (Raise EIndex)
    else if negb (Nat.eqb (length rows) (length metadata)) then Return (Raise EIndex)
    else
      d <~ read l_dim ;;
      match d with
      | None => atomic (modify (lset_dim (Some (width rows)))) ;~ generate_step o
      | Some _ => Return (Ok tt)
      end ;~
      d1 <~ read l_dim ;;
      match d1 with
      | None => Return (Raise EAssert)                                  (* not reached *)
      | Some dim =>
          if negb (Nat.eqb (width rows) dim) then Return (Raise EIndex)
          else
            atomic (forM rows (fun v => lift (validate_dim dim (Vec v)))) ;~
            pmapM (combine rows metadata) (fun '(v, m) => add_one_steps v m)
      end.

  (** [insert]; lsh.py:121-128, for a matrix of vectors. *)
  Definition insert_steps (o : lsh_orc F) (rows : list (list F))
      (metadata : option (list (option Mt))) : prog lshi (list pystr) :=
    ids <~ add_steps o rows
             (match metadata with
              | None => repeat (Some empty) (length rows)
              | Some l => l
              end) ;;
    Return (Ok (map (fun i => str_nat (Z.to_nat i)) ids)).
End LshSteps.
