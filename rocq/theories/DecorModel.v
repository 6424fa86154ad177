(** The three function decorators: [timing_decorator] and [memory_usage_decorator] of
    src/valori/utils/helpers.py and [debug_function] of src/valori/utils/debugging.py. *)

From Coq Require Import List ZArith Bool.
From Verif Require Import PyBase.
Import ListNotations.
Open Scope Z_scope.

(** What a call can raise, as far as the decorators distinguish it (helpers.py:364 catches
    [ImportError]; debugging.py:392 catches every [Exception]).  [XImport]: an [ImportError];
    [XEncode]: what [print] raises when the terminal cannot show a character; [XOther]: anything
    else. *)
Inductive xn : Type := XImport | XEncode | XOther (n : Z).

(** The lines printed: helpers.py:339, 361, 365; debugging.py:374-375, 384, 388, 394-395.
    Simplified: the texts are kept as their varying parts (function name, durations, sizes,
    counts, shape, message). *)
Inductive line : Type :=
| LTook (name : pystr) (t : Z)
| LMemory (name : pystr) (used : Z)
| LNoPsutil
| LCalling (name : pystr)
| LArgs (n k : nat)
| LSuccess (name : pystr) (t : Z)
| LShape (shape : list nat)
| LFailed (name : pystr) (t : Z)
| LError (e : xn).

(** The program around a decorated function: everything the function can read and change, the
    lines printed so far, and how often the clock (time.time) and the memory figure
    (memory_info().rss) have been read. *)
Record around (S : Type) : Type := MkAround { a_st : S; a_out : list line; a_reads : nat }.
Arguments MkAround {S}. Arguments a_st {S}. Arguments a_out {S}. Arguments a_reads {S}.

(** A computation: what it returns or raises, and the program after it. *)
Definition run (S A : Type) : Type := S -> (A + xn) * S.

Section Decor.
  Context {S A : Type}.
  (** The machine: whether [print] can write a line (the encoding of stdout), whether psutil can
      be imported, the successive readings of the clock and of the memory figure, the shape and
      dtype of a result that is an array. *)
  Context (shows : line -> bool) (psutil : bool) (reading : nat -> Z) (shape_of : A -> option (list nat)).

  Definition seq {X Y : Type} (c : run (around S) X) (k : X -> run (around S) Y) : run (around S) Y :=
    fun w => match c w with
             | (inl x, w') => k x w'
             | (inr e, w') => (inr e, w')
             end.
  Definition give {X : Type} (x : X) : run (around S) X := fun w => (inl x, w).
  Definition throw {X : Type} (e : xn) : run (around S) X := fun w => (inr e, w).

  (** The Python builtin [print]. *)
  Definition print (l : line) : run (around S) unit :=
    fun w => if shows l then (inl tt, MkAround (a_st w) (a_out w ++ [l]) (a_reads w)) else (inr XEncode, w).

  (** [time.time()] and [process.memory_info().rss]. *)
  Definition read : run (around S) Z :=
    fun w => (inl (reading (a_reads w)), MkAround (a_st w) (a_out w) (Datatypes.S (a_reads w))).

  (** [func( *args, **kwargs)] inside a wrapper. *)
  Definition body (f : run S A) : run (around S) A :=
    fun w => let (r, s) := f (a_st w) in (r, MkAround s (a_out w) (a_reads w)).

  (** [timing_decorator.wrapper]; helpers.py:333-340.  A [func] is given as what it does to the
      program around it, so that decorated functions can be decorated again. *)
  Definition timing (name : pystr) (f : run (around S) A) : run (around S) A :=
    seq read (fun start =>
    seq f (fun result =>
    seq read (fun finish =>
    seq (print (LTook name (finish - start))) (fun _ =>
    give result)))).

  (** [memory_usage_decorator.wrapper]; helpers.py:348-366.  Simplified: [psutil.Process] and
      [memory_info] do not fail. *)
  Definition memory_usage (name : pystr) (f : run (around S) A) : run (around S) A :=
    fun w =>
    let attempt :=
      if psutil
      then seq read (fun before =>
           seq f (fun result =>
           seq read (fun after =>
           seq (print (LMemory name (after - before))) (fun _ =>
           give result))))
      else throw XImport in
    match attempt w with
    | (inr XImport, w') => seq (print LNoPsutil) (fun _ => f) w'
    | x => x
    end.

  (** [debug_function.wrapper]; debugging.py:368-396. *)
  Definition debug (name : pystr) (nargs nkw : nat) (f : run (around S) A) : run (around S) A :=
    seq (print (LCalling name)) (fun _ =>
    seq (print (LArgs nargs nkw)) (fun _ =>
    seq read (fun start =>
    fun w =>
    match seq f (fun result =>
          seq read (fun finish =>
          seq (print (LSuccess name (finish - start))) (fun _ =>
          seq (match shape_of result with
               | Some sh => print (LShape sh)
               | None => give tt
               end) (fun _ =>
          give result)))) w with
    | (inl result, w') => (inl result, w')
    | (inr e, w') =>
        seq read (fun finish =>
        seq (print (LFailed name (finish - start))) (fun _ =>
        seq (print (LError e)) (fun _ =>
        throw e))) w'
    end))).
End Decor.

(** A decorator above a [def]; helpers.py:330, 345, debugging.py:364. *)
Inductive deco : Type := DTiming | DMemory | DDebug (nargs nkw : nat).

(** The function a [def] with decorators defines: the last decorator is applied first
    (Python's rule; [functools.wraps] keeps the name, helpers.py:333, 348, debugging.py:367). *)
Fixpoint decorated {S A} (shows : line -> bool) (psutil : bool) (reading : nat -> Z)
    (shape_of : A -> option (list nat)) (name : pystr) (ds : list deco) (f : run (around S) A) : run (around S) A :=
  match ds with
  | [] => f
  | d :: r =>
      let g := decorated shows psutil reading shape_of name r f in
      match d with
      | DTiming => timing shows reading name g
      | DMemory => memory_usage shows psutil reading name g
      | DDebug n k => debug shows reading shape_of name n k g
      end
  end.
