(** Model of src/valori/quantization/product.py.  Scalars are any type with the operations of
    [Num]; float32 conversions ([astype(np.float32)], lines 79, 88, 190) do not change values. *)

From Coq Require Import List Arith ZArith Lia Bool.
From Verif Require Import PyBase PyMore Num ScalarModel.
Import ListNotations.

(** The attributes, product.py 23-31 and base.py 19-23.  [pq_cents] is the array of shape
    (m, k, subvector_dim) as nested lists, [pq_k] its second dimension. *)
Record productq (F : Type) : Type := mkProductq {
  pq_dim : option nat;
  pq_sub : option nat;
  pq_cents : option (list (list (list F)));
  pq_k : nat;
  pq_trained : bool;
  pq_init : bool }.
Arguments mkProductq {F}. Arguments pq_dim {F}. Arguments pq_sub {F}. Arguments pq_cents {F}.
Arguments pq_k {F}. Arguments pq_trained {F}. Arguments pq_init {F}.

Definition product_new {F} : productq F := mkProductq None None None 0 false false.

Section Product.
  Context {F : Type} `{Num F}.
  (** Configuration: [m] subvectors, [k] centroids each (natural numbers). *)
  Context (m k : nat).

  (** [np.argmin]: position of the first least entry; an empty array raises. *)
  Fixpoint argmin_from (best : F) (pos i : nat) (l : list F) : nat :=
    match l with
    | [] => pos
    | x :: l' => if nltb x best then argmin_from x i (S i) l' else argmin_from best pos (S i) l'
    end.
  Definition argmin (l : list F) : result nat :=
    match l with
    | [] => Raise EValue
    | x :: l' => Ok (argmin_from x 0 1 l')
    end.

  (** [v[start:end]] of a numpy vector, for bounds that are not negative. *)
  Definition cut (start stop : nat) (v : list F) : list F := firstn (stop - start) (skipn start v).

  (** [np.sum((x - y) ** 2)]. *)
  Definition sum_sq (x y : list F) : result F :=
    rbind (np_sub x y) (fun d => Ok (nsum (map (fun a => nmul a a) d))).

  (** product.py 33-38; [_trained] keeps its value. *)
  Definition product_initialize : M (productq F) unit :=
    modify (fun q => mkProductq None None None (pq_k q) (pq_trained q) true).

  (** product.py 71-90 for subspace [i]: [kmeans] is what KMeans(...).fit returns as cluster
      centers, [cmean] the column means of rows of width [sd]. *)
  Definition train_sub (kmeans : nat -> list (list F) -> result (list (list F)))
      (cmean : nat -> list (list F) -> list F) (rows : list (list F)) (ek sd i : nat) : M (productq F) unit :=
    let sub := map (cut (i * sd) ((i + 1) * sd)) rows in
    let put book := modify (fun q => mkProductq (pq_dim q) (pq_sub q)
          (match pq_cents q with Some cs => Some (set_nth i book cs) | None => None end)
          (pq_k q) (pq_trained q) (pq_init q)) in
    if Nat.leb ek 1
    then if Nat.eqb ek 0 then raise EIndexRange else put [cmean sd sub]
    else centers <- lift (kmeans i sub) ;;
         (* 88: assignment of the rows into a slice of the (ek, sd) array *)
         if Nat.leb (length centers) ek && forallb (fun c => Nat.eqb (length c) sd) centers
         then put (centers ++ repeat (repeat nzero sd) (ek - length centers))
         else raise EValue.

  (** product.py 40-95. *)
  Definition product_train kmeans cmean (vectors : narr F) : M (productq F) unit :=
    q <- get ;;
    if negb (pq_init q) then raise EQuant
    else match vectors with
         | A2 w rows =>
             wrap EQuant
               (modify (fun q => mkProductq (Some w) (pq_sub q) (pq_cents q) (pq_k q) (pq_trained q) (pq_init q)) ;;;
                if Nat.eqb m 0 then raise EZeroDiv
                else if negb (Nat.eqb (w mod m) 0) then raise EQuant
                else
                  let sd := w / m in
                  let ek := Nat.min k (Nat.max 1 (length rows)) in
                  modify (fun q => mkProductq (pq_dim q) (Some sd)
                                     (Some (repeat (repeat (repeat nzero sd) ek) m)) ek (pq_trained q) (pq_init q)) ;;;
                  forM (seq 0 m) (train_sub kmeans cmean rows ek sd) ;;;
                  modify (fun q => mkProductq (pq_dim q) (pq_sub q) (pq_cents q) (pq_k q) true (pq_init q)))
         | _ => raise EQuant
         end.

  (** product.py 110-114, 132: what is kept of an index in the code array. *)
  Definition stored (ek : nat) (c : nat) : Z :=
    (Z.of_nat c mod (if Nat.leb (ek - 1) 255 then 256 else 65536))%Z.

  (** product.py 118-132 for one vector; the code runs the loops the other way round, and every
      error ends as the same QuantizationError. *)
  Definition encode_row (sd ek : nat) (cs : list (list (list F))) (row : list F) : result (list Z) :=
    rmap (fun i =>
      rbind (py_index cs (Z.of_nat i)) (fun book =>
      rbind (rmap (sum_sq (cut (i * sd) ((i + 1) * sd) row)) book) (fun ds =>
      rbind (argmin ds) (fun c => Ok (stored ek c))))) (seq 0 m).

  (** product.py 97-137.  Arrays of more than two dimensions are not followed into numpy: they
      raise here. *)
  Definition product_quantize (vectors : narr F) : M (productq F) (list (list Z)) :=
    q <- get ;;
    if negb (pq_init q) then raise EQuant
    else if negb (pq_trained q) then raise EQuant
    else wrap EQuant
      match pq_sub q, pq_cents q with
      | Some sd, Some cs =>
          match vectors with
          | A2 _ rows => lift (rmap (encode_row sd (pq_k q) cs) rows)
          | _ => raise EIndexRange
          end
      | _, _ => raise EAssert
      end.

  (** [out[start:end] = v]: the slice ends at the array's end; [v] must have its width or one. *)
  Definition assign_cut (start stop : nat) (v out : list F) : result (list F) :=
    let n := length out in
    let s := Nat.min start n in
    let e := Nat.max s (Nat.min stop n) in
    if Nat.eqb (length v) (e - s) then Ok (firstn s out ++ v ++ skipn e out)
    else match v with
         | [x] => Ok (firstn s out ++ repeat x (e - s) ++ skipn e out)
         | _ => Raise EValue
         end.

  (** product.py 155-162 for one code row. *)
  Fixpoint decode_from (sd : nat) (cs : list (list (list F))) (codes : list Z) (i n : nat) (out : list F)
      : result (list F) :=
    match n with
    | O => Ok out
    | S n' =>
        rbind (py_index codes (Z.of_nat i)) (fun c =>
        rbind (py_index cs (Z.of_nat i)) (fun book =>
        rbind (py_index book c) (fun v =>
        rbind (assign_cut (i * sd) ((i + 1) * sd) v out) (fun out' =>
        decode_from sd cs codes (S i) n' out'))))
    end.

  (** product.py 139-167. *)
  Definition product_dequantize (codes : narr Z) : M (productq F) (list (list F)) :=
    q <- get ;;
    if negb (pq_init q) then raise EQuant
    else if negb (pq_trained q) then raise EQuant
    else wrap EQuant
      match pq_dim q, pq_sub q, pq_cents q with
      | Some dim, Some sd, Some cs =>
          match codes with
          | A2 _ rows => lift (rmap (fun row => decode_from sd cs row 0 m (repeat nzero dim)) rows)
          | _ => raise EIndexRange
          end
      | _, _, _ => raise EAssert
      end.

  (** product.py 189-197 (and saq.py 500-508): the query cut or padded with zeros to the
      dimension. *)
  Definition align (dim : nat) (v : list F) : list F :=
    if Nat.ltb (length v) dim then v ++ repeat nzero (dim - length v)
    else if Nat.ltb dim (length v) then firstn dim v else v.

  (** product.py 199-211. *)
  Fixpoint distance_from (sd : nat) (cs : list (list (list F))) (codes : list Z) (q : list F)
      (i n : nat) (acc : F) : result F :=
    match n with
    | O => Ok acc
    | S n' =>
        rbind (py_index codes (Z.of_nat i)) (fun c =>
        rbind (py_index cs (Z.of_nat i)) (fun book =>
        rbind (py_index book c) (fun v =>
        rbind (sum_sq (cut (i * sd) ((i + 1) * sd) q) v) (fun d =>
        distance_from sd cs codes q (S i) n' (nadd acc d)))))
    end.

  (** product.py 169-217, for a one-dimensional query and code vector. *)
  Definition product_distance (query : list F) (codes : list Z) : M (productq F) F :=
    q <- get ;;
    if negb (pq_init q) then raise EQuant
    else if negb (pq_trained q) then raise EQuant
    else wrap EQuant
      match pq_sub q, pq_cents q, pq_dim q with
      | Some sd, Some cs, Some dim =>
          d <- lift (distance_from sd cs codes (align dim query) 0 m nzero) ;;
          ret (nsqrt d)
      | _, _, _ => raise EAssert
      end.

  (** product.py 264-270; the array's shape goes with the array. *)
  Definition product_close : M (productq F) unit := modify (fun _ => product_new).
End Product.
