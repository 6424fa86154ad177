(** Model of src/valori/quantization/scalar.py (and of the flags of quantization/base.py). *)

From Coq Require Import List Arith ZArith Lia Bool Reals Lra.
From Verif Require Import PyBase PyMore XReal.
Import ListNotations.
Open Scope R_scope.

(** A numeric array as far as its number of dimensions matters to the code.  [A2 w rows] is a 2D
    array of width [w]; rows of another length do not occur in numpy. *)
Inductive narr (A : Type) : Type :=
| A1 (v : list A)
| A2 (w : nat) (rows : list (list A))
| AN.
Arguments A1 {A}. Arguments A2 {A}. Arguments AN {A}.

(** The attributes, scalar.py 22-31 and base.py 19-23.  [zero_point] is left out: it is always an
    array of zeros, set and dropped together with [scale]. *)
Record scalarq : Type := mkScalarq {
  sq_dim : option nat;
  sq_min : option (list xr);
  sq_max : option (list xr);
  sq_scale : option (list xr);
  sq_trained : bool;
  sq_init : bool }.

Definition scalar_new : scalarq := mkScalarq None None None None false false.

(** numpy's broadcasting of two 1D arrays (also of the last axis of a matrix with a 1D array);
    mismatched widths raise. *)
Definition bcast {A B C} (f : A -> B -> C) (xs : list A) (ys : list B) : result (list C) :=
  if Nat.eqb (length xs) (length ys) then Ok (map (fun p => f (fst p) (snd p)) (combine xs ys))
  else match xs, ys with
       | [x], _ => Ok (map (f x) ys)
       | _, [y] => Ok (map (fun x => f x y) xs)
       | _, _ => Raise EValue
       end.

(** [np.min(vectors, axis=0)] and [np.max(...)] for a matrix of width [w]: no rows is an error
    unless the result is empty. *)
Definition column (j : nat) (rows : list (list xr)) : list xr := map (fun row => nth j row NaN) rows.
Definition reduce (f : xr -> xr -> xr) (l : list xr) : result xr :=
  match l with
  | [] => Raise EValue
  | x :: r => Ok (fold_left f r x)
  end.
Definition reduce_cols (f : xr -> xr -> xr) (w : nat) (rows : list (list xr)) : result (list xr) :=
  rmap (fun j => reduce f (column j rows)) (seq 0 w).

Definition int32_max : Z := (2 ^ 31 - 1)%Z.
Definition int64_max : Z := (2 ^ 63 - 1)%Z.

Section Scalar.
  (** [bits]: the configured width, a natural number (a negative one makes [1 << bits] raise).
      [rnd]: rounding of the arrays' float type; [rnd32]: rounding to float32. *)
  Context (bits : nat) (rnd rnd32 : R -> R).

  (** scalar.py 31. *)
  Definition max_val : Z := (2 ^ Z.of_nat bits - 1)%Z.

  (** scalar.py 33-40; [_trained] keeps its value. *)
  Definition scalar_initialize : M scalarq unit :=
    modify (fun q => mkScalarq None None None None (sq_trained q) true).

  (** scalar.py 61-63, for one column. *)
  Definition step_of (mn mx : xr) : xr :=
    let s := xdiv rnd (xsub rnd mx mn) (Fin (rnd (IZR (Z.min max_val int64_max)))) in
    match s with
    | Fin r => if Req_EM_T r 0 then Fin 1 else s
    | _ => s
    end.

  (** scalar.py 42-76. *)
  Definition scalar_train (vectors : narr xr) : M scalarq unit :=
    q <- get ;;
    if negb (sq_init q) then raise EQuant
    else match vectors with
         | A2 w rows =>
             modify (fun q => mkScalarq (Some w) (sq_min q) (sq_max q) (sq_scale q) (sq_trained q) (sq_init q)) ;;;
             wrap EQuant
               (mn <- lift (reduce_cols xmin w rows) ;;
                mx <- lift (reduce_cols xmax w rows) ;;
                modify (fun q => mkScalarq (sq_dim q) (Some mn) (Some mx)
                                   (Some (map (fun p => step_of (fst p) (snd p)) (combine mn mx)))
                                   true (sq_init q)))
         | _ => raise EQuant
         end.

  (** scalar.py 99-102, 114-117: largest value of the integer type, and the bound of the codes. *)
  Definition type_max : Z := if (max_val <=? int32_max)%Z then int32_max else int64_max.
  Definition upper_bound : Z := if (max_val <=? type_max)%Z then max_val else type_max.

  (** scalar.py 119; after the clip only NaN can occur. *)
  Definition nan_to_num (x : xr) : R :=
    match x with Fin r => r | PInf => rnd (IZR upper_bound) | NInf | NaN => 0 end.

  (** scalar.py 122 [astype(itype)] of a float that is not negative: truncation; what does not fit
      becomes the smallest integer of the type, as on x86-64. *)
  Definition cast_int (r : R) : Z :=
    let z := Int_part r in if (z <=? type_max)%Z then z else (- type_max - 1)%Z.

  (** scalar.py 109-122 for one entry.  The bound of the clip becomes a number of the arrays'
      float type. *)
  Definition code_of (x : xr) : Z :=
    cast_int (nan_to_num (xclip 0 (rnd (IZR upper_bound)) (xrint x))).

  (** scalar.py 78-127.  Widths are compared row by row, so a matrix with no rows and the wrong
      width is accepted here. *)
  Definition quantize_row (dim : nat) (mn sc : list xr) (row : list xr) : result (list Z) :=
    rbind (bcast (xsub rnd) row mn) (fun diff =>
    rbind (bcast (xdiv rnd) diff sc) (fun norm =>
    (* 122: the assignment into the (n, dim) array *)
    if Nat.eqb (length norm) dim then Ok (map code_of norm)
    else match norm with [x] => Ok (repeat (code_of x) dim) | _ => Raise EValue end)).

  Definition scalar_quantize (vectors : narr xr) : M scalarq (list (list Z)) :=
    q <- get ;;
    if negb (sq_init q) then raise EQuant
    else if negb (sq_trained q) then raise EQuant
    else wrap EQuant
      match vectors with
      | A2 _ rows =>
          match sq_dim q, sq_min q, sq_scale q with
          | Some dim, Some mn, Some sc => lift (rmap (quantize_row dim mn sc) rows)
          | _, _, _ => raise EAssert
          end
      | _ => raise EQuant
      end.

  (** scalar.py 129-162; the array made at 153 is not used. *)
  Definition dequantize_row (mn sc : list xr) (codes : list Z) : result (list xr) :=
    rbind (bcast (xmul rnd) (map (fun c => Fin (rnd32 (IZR c))) codes) sc) (fun y =>
    bcast (xadd rnd) y mn).

  Definition scalar_dequantize (codes : narr Z) : M scalarq (list (list xr)) :=
    q <- get ;;
    if negb (sq_init q) then raise EQuant
    else if negb (sq_trained q) then raise EQuant
    else wrap EQuant
      match sq_dim q, sq_scale q, sq_min q with
      | Some _, Some sc, Some mn =>
          match codes with
          | A1 v => lift (rmap (dequantize_row mn sc) [v])
          | A2 _ rows => lift (rmap (dequantize_row mn sc) rows)
          | AN => raise EQuant
          end
      | _, _, _ => raise EAssert
      end.

  (** scalar.py 238-246. *)
  Definition scalar_close : M scalarq unit := modify (fun _ => scalar_new).
End Scalar.
