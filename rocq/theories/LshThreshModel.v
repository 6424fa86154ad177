(** The LSH search with a threshold of its own, and its use in
    /repo/examples/advanced_indexing.py. *)

From Coq Require Import List Arith ZArith NArith Bool.
From Verif Require Import PyBase Payload StorageModel Num ClientModel LshModel.
Import ListNotations.
Open Scope py_scope.

Section Threshold.
  Context {F Mt : Type} `{Num F} `{Payload (list F) Mt}.
  Context (n_tables hash_size n_proj : nat) (lmt : lsh_metric) (threshold : F).

  (** [search(query_vector, k, threshold)]; lsh.py:130-189: the configured threshold when none is
      given. *)
  Definition lsh_search_at (o : lsh_orc F) (query : ndarray F) (k : Z) (t : option F)
      : M (lsh F Mt) (list (lsh_hit F Mt)) :=
    lsh_search n_tables hash_size n_proj lmt (match t with Some t => t | None => threshold end) o query k.

  (** The loop over thresholds of [demonstrate_lsh_features] and the numbers it prints;
      advanced_indexing.py:241-243 (there with k=10 and 0.1, 0.3, 0.5, 0.7). *)
  Definition threshold_counts (o : lsh_orc F) (query : ndarray F) (k : Z) (ts : list F)
      : M (lsh F Mt) (list nat) :=
    mapM ts (fun t => results <- lsh_search_at o query k (Some t) ;; ret (length results)).
End Threshold.
