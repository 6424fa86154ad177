(** Execution of a history of client calls. *)

From Coq Require Import List Arith ZArith NArith Bool.
From Verif Require Import PyBase Payload StorageModel StorageSpec StorageRun StorageOk Num ClientModel DbSpec.
Import ListNotations.
Open Scope py_scope.

Section Run.
  Context {X S F Mt Orc : Type}.
  Context (C : storage_class S (list F) Mt) (IC : index_class X S F Mt Orc).

  (** Turn a method outcome into an observation. *)
  Definition cobs {A} (f : A -> cret F Mt) (r : result A * client X S)
      : cret F Mt * client X S :=
    match r with
    | (Ok a, s) => (f a, s)
    | (Raise e, s) => (AExn e, s)
    end.

  (** Dispatch one call; client.py:49-130. *)
  Definition cl_step (c : client X S) (o : cop F Mt Orc) : cret F Mt * client X S :=
    match o with
    | CInit o extra => cobs (fun _ => AUnit) (cl_initialize C IC o extra c)
    | CInsert o fresh arr meta => cobs AIds (cl_insert IC o fresh arr meta c)
    | CSearch o q k => cobs AHits (cl_search IC o q k c)
    | CDelete ids => cobs ABool (cl_delete IC ids c)
    | CUpdate o id v m => cobs ABool (cl_update IC o id v m c)
    | CStats => cobs (fun x => ACounts (fst x) (snd x)) (cl_stats C IC c)
    | CClose extra => cobs (fun _ => AUnit) (cl_close C IC extra c)
    | CReopen => (AUnit, cl_reopen C IC c)
    end.

  (** Run a history of calls, collecting the answers. *)
  Fixpoint cl_run (c : client X S) (ops : list (cop F Mt Orc)) : list (cret F Mt) * client X S :=
    match ops with
    | [] => ([], c)
    | o :: ops' =>
        let (r, c') := cl_step c o in
        let (rs, c'') := cl_run c' ops' in
        (r :: rs, c'')
    end.

  (** A new client over storage state [s0]; client.py:24-47. *)
  Definition cl_new (s0 : S) : client X S := MkClient (ix_new IC) s0 false.

  (** Answers of, and state after, a history. *)
  Definition cl_answers (s0 : S) (ops : list (cop F Mt Orc)) : list (cret F Mt) :=
    fst (cl_run (cl_new s0) ops).
  Definition cl_after (s0 : S) (ops : list (cop F Mt Orc)) : client X S :=
    snd (cl_run (cl_new s0) ops).
End Run.
