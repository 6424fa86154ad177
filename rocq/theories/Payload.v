(** What the models need to know about vectors, metadata objects and Unicode characters. *)

From Coq Require Import NArith Bool List.
From Verif Require Import PyBase.

(** What the storage layer needs to know about vectors [V] and metadata objects [Mt]:
    [ndarray.nbytes], [len(str(meta).encode("utf-8"))], whether the object has a [copy]
    method (memory.py:56) and whether it can be pickled (disk.py:68).  Dictionaries of plain
    data are both; a caller can pass anything. *)
Class Payload (V Mt : Type) : Type := {
  nbytes : V -> N;
  strbytes : Mt -> N;
  copyable : Mt -> bool;
  picklable : Mt -> bool
}.

(** [str.isalnum] on a single code point above the ASCII range (the Unicode tables are not
    reproduced; theorems hold for every such predicate). *)
Class Unicode : Type := { uni_alnum : N -> bool }.

(** [str.isalnum] for one character: ASCII digits and letters, the arbitrary predicate above
    127. *)
Definition isalnum `{Unicode} (c : N) : bool :=
  ((48 <=? c) && (c <=? 57) || (65 <=? c) && (c <=? 90) || (97 <=? c) && (c <=? 122)
   || (128 <=? c) && uni_alnum c)%N.
