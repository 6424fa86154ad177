(** Model of the numerical helpers of /repo/src/valori/utils/helpers.py: [normalize_vectors],
    [compute_similarity_matrix] and [find_duplicates], over any scalar type.  A matrix is the
    list of its rows, all of one length. *)

From Coq Require Import String List Arith ZArith NArith Bool.
From Verif Require Import PyBase PyMore Num SimilarityModel.
Import ListNotations.

(** One step of the inner loop of [find_duplicates]; helpers.py:214-220.  [close i j] is
    [similarity_matrix[i, j] >= threshold]. *)
Definition dup_join (close : nat -> nat -> bool) (i : nat) (s : list nat * list nat) (j : nat)
    : list nat * list nat :=
  let (group, processed) := s in
  if memb j processed then (group, processed)
  else if close i j then (group ++ [j], j :: processed)
  else (group, processed).

(** One step of the outer loop; helpers.py:207-223.  The state is duplicate_groups and
    processed; [n] is the number of vectors. *)
Definition dup_step (close : nat -> nat -> bool) (n : nat)
    (s : list (list nat) * list nat) (i : nat) : list (list nat) * list nat :=
  let (groups, processed) := s in
  if memb i processed then (groups, processed)
  else
    let (group, processed') := fold_left (dup_join close i) (seq (i + 1) (n - (i + 1))) ([i], i :: processed) in
    (if (1 <? length group)%nat then groups ++ [group] else groups, processed').

(** The two loops of [find_duplicates]; helpers.py:203-225. *)
Definition dup_groups (close : nat -> nat -> bool) (n : nat) : list (list nat) :=
  fst (fold_left (dup_step close n) (seq 0 n) ([], [])).

Section Helpers.
  Context {F : Type} `{Num F}.

  (** The literal [1e-8] of helpers.py:135,139,143,148. *)
  Context (eps : F).

  (** [np.max] of an axis; no entries raise ValueError. *)
  Definition row_max (row : list F) : result F := nmax row.

  (** [np.min] likewise. *)
  Definition row_min (row : list F) : result F :=
    match row with
    | [] => Raise EValue
    | a :: l => Ok (fold_left (fun m x => if nleb x m then x else m) l a)
    end.

  (** One row of [vectors / (norms + 1e-8)]; helpers.py:134-135. *)
  Definition l2_row (row : list F) : list F :=
    map (fun a => ndiv a (nadd (norm row) eps)) row.

  (** helpers.py:138-139. *)
  Definition l1_row (row : list F) : list F :=
    map (fun a => ndiv a (nadd (nsum (map nabs row)) eps)) row.

  (** helpers.py:142-143. *)
  Definition max_row (row : list F) : result (list F) :=
    rbind (row_max (map nabs row)) (fun m => Ok (map (fun a => ndiv a (nadd m eps)) row)).

  (** helpers.py:146-148. *)
  Definition minmax_row (row : list F) : result (list F) :=
    rbind (row_min row) (fun lo =>
    rbind (row_max row) (fun hi =>
      Ok (map (fun a => ndiv (nsub a lo) (nadd (nsub hi lo) eps)) row))).

  (** [normalize_vectors]; helpers.py:122-151. *)
  Definition normalize_vectors (rows : list (list F)) (method : pystr) : result (list (list F)) :=
    if eqb method (py "l2") then Ok (map l2_row rows)
    else if eqb method (py "l1") then Ok (map l1_row rows)
    else if eqb method (py "max") then rmap max_row rows
    else if eqb method (py "minmax") then rmap minmax_row rows
    else Raise EValidation.

  (** All entries [f x y] for rows [x] and [y]. *)
  Definition table (f : list F -> list F -> F) (rows : list (list F)) : list (list F) :=
    map (fun x => map (f x) rows) rows.

  (** [compute_similarity_matrix]; helpers.py:154-183. *)
  Definition compute_similarity_matrix (rows : list (list F)) (metric : pystr)
      : result (list (list F)) :=
    if eqb metric (py "cosine") then
      rbind (normalize_vectors rows (py "l2")) (fun normalized => Ok (table dot normalized))
    else if eqb metric (py "euclidean") then
      Ok (table (fun x y => ndiv none (nadd none (norm (zip_with nsub x y)))) rows)
    else if eqb metric (py "dot") then Ok (table dot rows)
    else Raise EValidation.

  (** [similarity_matrix[i, j] >= threshold]; helpers.py:218.  The indices are in range. *)
  Definition at_least (threshold : F) (matrix : list (list F)) (i j : nat) : bool :=
    nleb threshold (nth j (nth i matrix []) nzero).

  (** [find_duplicates]; helpers.py:186-225. *)
  Definition find_duplicates (rows : list (list F)) (threshold : F) (metric : pystr)
      : result (list (list nat)) :=
    rbind (compute_similarity_matrix rows metric) (fun similarity_matrix =>
      Ok (dup_groups (at_least threshold similarity_matrix) (length rows))).
End Helpers.
