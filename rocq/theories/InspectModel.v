(** Inspecting an index.

    Source: /repo/src/valori/utils/debugging.py:427-491 ([IndexInspector]).  The averages of the sample
    (debugging.py:467-470) and the copied statistics and configuration (debugging.py:436-441) are left
    out; they do not raise. *)

From Coq Require Import List Arith ZArith NArith QArith Bool.
From Verif Require Import PyBase PyMore Num HnswModel LshModel AnnoyModel.
Import ListNotations.
Open Scope nat_scope.

(** The answer of [_inspect_vectors]: the count and, if the first vector is an array, the dimension;
    debugging.py:452-473. *)
Record vector_info : Type := MkVinfo { vi_count : nat; vi_dimension : option nat }.

(** The answer of [_inspect_hash_tables]; debugging.py:475-491. *)
Record hash_info : Type := MkHinfo {
  hi_tables : nat;
  hi_buckets : nat;
  hi_entries : nat;
  hi_average : Q
}.

(** [_inspect_vectors] where [vectors] is a list of arrays and [None]s (lsh.py:55, annoy.py:47);
    debugging.py:452-473.  [np.array] of arrays of different lengths, or of an array and a [None],
    raises ValueError. *)
Definition inspect_slots {F} (vectors : list (option (list F))) : result vector_info :=
  match vectors with
  | [] => Ok (MkVinfo 0 None)
  | None :: _ => Ok (MkVinfo (length vectors) None)
  | Some v :: _ =>
      let sample := firstn (Nat.min 100 (length vectors)) vectors in
      if forallb (fun o => match o with Some u => Nat.eqb (length u) (length v) | None => false end) sample
      then Ok (MkVinfo (length vectors) (Some (length v)))
      else Raise EValue
  end.

(** [_inspect_vectors] where [vectors] is a dictionary (hnsw.py:39): it cannot be sliced
    (debugging.py:460). *)
Definition inspect_dict {K A} (vectors : dict K A) : result vector_info :=
  match vectors with
  | [] => Ok (MkVinfo 0 None)
  | _ => Raise EType
  end.

(** [_inspect_hash_tables]; debugging.py:475-491. *)
Definition inspect_tables (tables : list (dict (list bool) (list Z))) : hash_info :=
  match tables with
  | [] => MkHinfo 0 0 0 0
  | _ =>
      let total_buckets := fold_left Nat.add (map (@length _) tables) 0 in
      let total_entries :=
        fold_left Nat.add (map (fun tb => fold_left Nat.add (map (@length _) (dvals tb)) 0) tables) 0 in
      MkHinfo (length tables) total_buckets total_entries
        (inject_Z (Z.of_nat total_entries) / inject_Z (Z.of_nat (Nat.max total_buckets 1)))%Q
  end.

(** [inspect_index] of the indexes that have the attribute [vectors] (the flat and the IVF index have
    neither it nor [hash_tables]); debugging.py:434-450. *)
Definition inspect_lsh {F Mt} (x : lsh F Mt) : result (vector_info * hash_info) :=
  rbind (inspect_slots (l_vectors x)) (fun vi => Ok (vi, inspect_tables (l_tables x))).
Definition inspect_annoy {F Mt} (x : annoy F Mt) : result vector_info := inspect_slots (a_vectors x).
Definition inspect_hnsw {F} (x : hnsw F) : result vector_info := inspect_dict (h_vectors x).
