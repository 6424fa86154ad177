(** An object used by several threads, with one lock that some of its methods take and others do
    not.  Methods are step programs; a schedule says which thread moves. *)

From Coq Require Import List Arith ZArith Bool.
From Verif Require Import PyBase StorageSpec StepModel ConcModel.
Import ListNotations.

Section Lock.
  Context {S V Mt : Type}.

  (** A method call: the test at its start, made outside of the lock, which may answer at once;
      whether the rest runs inside [with self.lock]; the rest, statement by statement. *)
  Record object : Type := MkObject {
    o_early : sop V Mt -> S -> option (sret V Mt);
    o_locked : sop V Mt -> bool;
    o_body : sop V Mt -> prog S (sret V Mt)
  }.

  Context (O : object).

  (** Where a thread is: between calls; called; waiting for the lock; inside the lock; running a
      method that takes no lock; about to return. *)
  Inductive place : Type :=
  | LIdle
  | LCalled (o : sop V Mt)
  | LWaiting (o : sop V Mt)
  | LInside (p : prog S (sret V Mt))
  | LOutside (p : prog S (sret V Mt))
  | LAnswer (r : sret V Mt).

  (** The object, the owner of its lock, where each thread is and the calls it will make. *)
  Record lconfig : Type := MkLConf {
    lc_state : S;
    lc_lock : option nat;
    lc_place : nat -> place;
    lc_todo : nat -> list (sop V Mt)
  }.

  (** One move of thread [t].  A thread that finds the lock taken does not move. *)
  Definition lmove (t : nat) (c : lconfig) : list (event (V:=V) (Mt:=Mt)) * lconfig :=
    let goto x := MkLConf (lc_state c) (lc_lock c) (upd (lc_place c) t x) (lc_todo c) in
    match lc_place c t with
    | LIdle =>
        match lc_todo c t with
        | [] => ([], c)
        | o :: os => ([Inv t o], MkLConf (lc_state c) (lc_lock c) (upd (lc_place c) t (LCalled o))
                                         (upd (lc_todo c) t os))
        end
    | LCalled o =>
        match o_early O o (lc_state c) with
        | Some r => ([], goto (LAnswer r))
        | None => ([], goto (if o_locked O o then LWaiting o else LOutside (o_body O o)))
        end
    | LWaiting o =>
        match lc_lock c with
        | Some _ => ([], c)
        | None => ([], MkLConf (lc_state c) (Some t) (upd (lc_place c) t (LInside (o_body O o))) (lc_todo c))
        end
    | LInside (Step f) =>
        match f (lc_state c) with
        | (p, s) => ([], MkLConf s (lc_lock c) (upd (lc_place c) t (LInside p)) (lc_todo c))
        end
    | LInside (Return r) =>
        ([], MkLConf (lc_state c) None (upd (lc_place c) t (LAnswer (answer r))) (lc_todo c))
    | LOutside (Step f) =>
        match f (lc_state c) with
        | (p, s) => ([], MkLConf s (lc_lock c) (upd (lc_place c) t (LOutside p)) (lc_todo c))
        end
    | LOutside (Return r) => ([], goto (LAnswer (answer r)))
    | LAnswer r => ([Res t r], goto LIdle)
    end.

  (** The history of a schedule. *)
  Fixpoint lmoves (sched : list nat) (c : lconfig) : list (event (V:=V) (Mt:=Mt)) * lconfig :=
    match sched with
    | [] => ([], c)
    | t :: r =>
        let (e1, c1) := lmove t c in
        let (e2, c2) := lmoves r c1 in
        (e1 ++ e2, c2)
    end.

  (** All threads between calls, the lock free. *)
  Definition lfresh (s : S) (todo : nat -> list (sop V Mt)) : lconfig :=
    MkLConf s None (fun _ => LIdle) todo.
End Lock.

Arguments object : clear implicits.
Arguments lconfig : clear implicits.
Arguments place : clear implicits.
