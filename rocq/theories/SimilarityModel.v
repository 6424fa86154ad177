(** Model of /repo/src/valori/utils/similarity.py over any scalar type; the theorems use exact
    reals. *)

From Coq Require Import List Arith ZArith Bool.
From Verif Require Import PyBase Num.
Import ListNotations.

Section Similarity.
  Context {F : Type} `{Num F}.

  (** [np.abs] of one entry. *)
  Definition nabs (x : F) : F := if nleb nzero x then x else nsub nzero x.

  (** [np.clip(x, lo, hi)] of one entry. *)
  Definition nclip (lo hi x : F) : F :=
    let y := if nleb lo x then x else lo in if nleb y hi then y else hi.

  (** A count as a scalar. *)
  Fixpoint nof (n : nat) : F :=
    match n with O => nzero | Datatypes.S n' => nadd (nof n') none end.

  (** [np.max] of one-dimensional data; an empty array raises ValueError. *)
  Definition nmax (l : list F) : result F :=
    match l with
    | [] => Raise EValue
    | a :: l' => Ok (fold_left (fun m x => if nleb m x then x else m) l' a)
    end.

  (** The two checks at the head of every function of similarity.py, e.g. lines 21-25: both
      arguments one-dimensional and of equal length. *)
  Definition checked {A} (a b : ndarray F) (k : list F -> list F -> result A) : result A :=
    match a, b with
    | Vec x, Vec y => if negb (Nat.eqb (length x) (length y)) then Raise EValue else k x y
    | _, _ => Raise EValue
    end.

  (** [cosine_similarity]; similarity.py:10-42. *)
  Definition cosine_similarity (a b : ndarray F) : result F :=
    checked a b (fun x y =>
      let dot_product := dot x y in
      let norm_a := norm x in
      let norm_b := norm y in
      if neqb norm_a nzero || neqb norm_b nzero then Ok nzero
      else Ok (nclip (nsub nzero none) none (ndiv dot_product (nmul norm_a norm_b)))).

  (** [cosine_distance]; similarity.py:45-57. *)
  Definition cosine_distance (a b : ndarray F) : result F :=
    rbind (cosine_similarity a b) (fun s => Ok (nsub none s)).

  (** [euclidean_distance]; similarity.py:60-77. *)
  Definition euclidean_distance (a b : ndarray F) : result F :=
    checked a b (fun x y => Ok (norm (zip_with nsub x y))).

  (** [euclidean_distance_squared]; similarity.py:80-98. *)
  Definition euclidean_distance_squared (a b : ndarray F) : result F :=
    checked a b (fun x y => let diff := zip_with nsub x y in Ok (dot diff diff)).

  (** [dot_product]; similarity.py:101-118. *)
  Definition dot_product (a b : ndarray F) : result F :=
    checked a b (fun x y => Ok (dot x y)).

  (** [manhattan_distance]; similarity.py:121-138. *)
  Definition manhattan_distance (a b : ndarray F) : result F :=
    checked a b (fun x y => Ok (nsum (map nabs (zip_with nsub x y)))).

  (** [chebyshev_distance]; similarity.py:141-158. *)
  Definition chebyshev_distance (a b : ndarray F) : result F :=
    checked a b (fun x y => nmax (map nabs (zip_with nsub x y))).

  (** [(a > 0).astype(int)]; similarity.py:179-180, 203-204. *)
  Definition binary (x : list F) : list bool := map (fun a => nltb nzero a) x.

  (** Number of positions where two equally long boolean lists satisfy [f]: the [np.sum] of a
      boolean array. *)
  Definition count2 (f : bool -> bool -> bool) (x y : list bool) : nat :=
    length (filter (fun p => f (fst p) (snd p)) (combine x y)).

  (** [hamming_distance]; similarity.py:161-182. *)
  Definition hamming_distance (a b : ndarray F) : result nat :=
    checked a b (fun x y => Ok (count2 xorb (binary x) (binary y))).

  (** [jaccard_similarity]; similarity.py:185-214. *)
  Definition jaccard_similarity (a b : ndarray F) : result F :=
    checked a b (fun x y =>
      let intersection := count2 andb (binary x) (binary y) in
      let union := count2 orb (binary x) (binary y) in
      if Nat.eqb union 0 then Ok (if Nat.eqb intersection 0 then none else nzero)
      else Ok (ndiv (nof intersection) (nof union))).

  (** [jaccard_distance]; similarity.py:217-229. *)
  Definition jaccard_distance (a b : ndarray F) : result F :=
    rbind (jaccard_similarity a b) (fun s => Ok (nsub none s)).

  (** The [norm] argument of [normalize_vector]: the three accepted strings, or another. *)
  Inductive norm_kind : Type := NormL1 | NormL2 | NormMax | NormOther.

  (** [normalize_vector]; similarity.py:232-258. *)
  Definition normalize_vector (a : ndarray F) (kind : norm_kind) : result (list F) :=
    match a with
    | Vec x =>
        rbind (match kind with
               | NormL2 => Ok (norm x)
               | NormL1 => Ok (nsum (map nabs x))
               | NormMax => nmax (map nabs x)
               | NormOther => Raise EValue
               end)
              (fun norm_value =>
               if neqb norm_value nzero then Ok x
               else Ok (map (fun e => ndiv e norm_value) x))
    | _ => Raise EValue
    end.

  (** [batch_cosine_similarity]; similarity.py:261-293.  A two-dimensional array without rows has
      no visible width here; numpy's shape check is applied to the rows present. *)
  Definition batch_cosine_similarity (a b : ndarray F) : result (list (list F)) :=
    match a, b with
    | Mat xs, Mat ys =>
        if forallb (fun x => forallb (fun y => Nat.eqb (length x) (length y)) ys) xs
        then Ok (map (fun x => map (fun y =>
                let norm_a := if neqb (norm x) nzero then none else norm x in
                let norm_b := if neqb (norm y) nzero then none else norm y in
                nclip (nsub nzero none) none (ndiv (dot x y) (nmul norm_a norm_b))) ys) xs)
        else Raise EValue
    | _, _ => Raise EValue
    end.
End Similarity.
