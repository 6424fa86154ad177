(** Scalars and the distance computations of the indexes.

    The index models are written over any scalar type [F] with the operations below, so one
    model serves exact reals (for metric laws), integers (for executable examples) and any
    rounding arithmetic.  Ordering theorems ask only that the order is total and transitive
    ([NumOrder]), which holds for floats once NaN is excluded, and also for the order used by
    [np.argsort], which places NaN last. *)

From Coq Require Import List Arith ZArith Lia Bool.
From Verif Require Import PyBase.
Import ListNotations.

Class Num (F : Type) : Type := {
  nzero : F;
  none : F;
  nadd : F -> F -> F;
  nsub : F -> F -> F;
  nmul : F -> F -> F;
  ndiv : F -> F -> F;
  nsqrt : F -> F;
  nleb : F -> F -> bool;
  neqb : F -> F -> bool;
  nfinite : F -> bool
}.

(** No NaN among the values compared. *)
Class NumOrder (F : Type) `{Num F} : Prop := {
  nleb_total : forall x y, nleb x y = true \/ nleb y x = true;
  nleb_trans : forall x y z, nleb x y = true -> nleb y z = true -> nleb x z = true
}.

(** The metric names the indexes accept; every other string is [MOther].
    flat.py:127-135, ivf.py:395-408, hnsw.py:320-333. *)
Inductive metric : Type := MCosine | MEuclidean | MOther.

(** An argument array: one-dimensional, two-dimensional (a list of rows) or anything else. *)
Inductive ndarray (F : Type) : Type :=
| Vec (v : list F)
| Mat (rows : list (list F))
| Nd.
Arguments Vec {F} v.
Arguments Mat {F} rows.
Arguments Nd {F}.

Section Ops.
  Context {F : Type} `{Num F}.

  (** [x < y]. *)
  Definition nltb (x y : F) : bool := negb (nleb y x).

  (** Sum of a list, left to right (numpy's pairwise summation order is not modelled). *)
  Definition nsum (l : list F) : F := fold_left nadd l nzero.

  (** Pointwise operation on two lists of equal length. *)
  Fixpoint zip_with (f : F -> F -> F) (x y : list F) : list F :=
    match x, y with
    | a :: x', b :: y' => f a b :: zip_with f x' y'
    | _, _ => []
    end.

  (** [np.dot] on lists already known to have equal length. *)
  Definition dot (x y : list F) : F := nsum (zip_with nmul x y).

  (** [np.linalg.norm(x)]. *)
  Definition norm (x : list F) : F := nsqrt (dot x x).

  (** [x - y] with numpy broadcasting: equal lengths, or one side of length one. *)
  Definition np_sub (x y : list F) : result (list F) :=
    if Nat.eqb (length x) (length y) then Ok (zip_with nsub x y)
    else match x, y with
         | [a], _ => Ok (map (fun b => nsub a b) y)
         | _, [b] => Ok (map (fun a => nsub a b) x)
         | _, _ => Raise EValue
         end.

  (** [_compute_distance] of the IVF and HNSW indexes; ivf.py:395-408, hnsw.py:320-333. *)
  Definition pair_distance (mt : metric) (x y : list F) : result F :=
    match mt with
    | MCosine =>
        if negb (Nat.eqb (length x) (length y)) then Raise EValue   (* np.dot shapes *)
        else
          let dot_product := dot x y in
          let norm1 := norm x in
          let norm2 := norm y in
          if neqb norm1 nzero || neqb norm2 nzero then Ok none
          else Ok (nsub none (ndiv dot_product (nmul norm1 norm2)))
    | MEuclidean => rbind (np_sub x y) (fun d => Ok (norm d))
    | MOther => Raise EIndex
    end.

  (** One row of sklearn's [normalize(X)]: divide by the norm, a zero norm replaced by one. *)
  Definition sk_normalize (x : list F) : list F :=
    let n := norm x in
    let n' := if neqb n nzero then none else n in
    map (fun a => ndiv a n') x.

  (** One entry of sklearn's [cosine_similarity]: dot product of the normalised rows. *)
  Definition sk_cosine (x y : list F) : F := dot (sk_normalize x) (sk_normalize y).

  (** One entry of sklearn's [euclidean_distances]: sqrt(max(0, xx - 2xy + yy)). *)
  Definition sk_euclidean (x y : list F) : F :=
    let d := nadd (nsub (dot x x) (nmul (nadd none none) (dot x y))) (dot y y) in
    nsqrt (if nleb d nzero then nzero else d).

  (** The distance the flat index reports for one row; flat.py:127-135 (a metric name that is
      neither supported raises before this is reached). *)
  Definition row_distance (mt : metric) (q x : list F) : F :=
    match mt with
    | MCosine => nsub none (sk_cosine q x)
    | _ => sk_euclidean q x
    end.

  (** What sklearn's input checks accept: a row of at least one feature, all finite. *)
  Definition row_ok (d : nat) (x : list F) : bool :=
    Nat.eqb (length x) d && forallb nfinite x.

  (** flat.py:124-135: [np.array(vectors)] and the matrix routine.  Rows of different lengths,
      a query of another length, no features, and non-finite entries raise ValueError. *)
  Definition matrix_distances (mt : metric) (q : list F) (rows : list (list F))
      : result (list F) :=
    match mt with
    | MOther => Raise EIndex
    | _ =>
        if negb (Nat.eqb (length q) 0) && row_ok (length q) q && forallb (row_ok (length q)) rows
        then Ok (map (row_distance mt q) rows)
        else Raise EValue
    end.

  (** [pair_distance] in a loop, stopping at the first exception; ivf.py:121-124. *)
  Fixpoint pair_distances (mt : metric) (q : list F) (rows : list (list F)) : result (list F) :=
    match rows with
    | [] => Ok []
    | row :: rows' =>
        rbind (pair_distance mt q row) (fun d =>
        rbind (pair_distances mt q rows') (fun ds => Ok (d :: ds)))
    end.
End Ops.

(** [np.array(rows)]: rows of different lengths raise ValueError. *)
Definition np_array {F} (rows : list (list F)) : result (list (list F)) :=
  match rows with
  | [] => Ok []
  | row :: _ => if forallb (fun r => Nat.eqb (length r) (length row)) rows
                then Ok rows else Raise EValue
  end.
