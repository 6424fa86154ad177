(** Model of src/valori/quantization/saq.py. *)

From Coq Require Import List Arith ZArith Lia Bool Reals Lra.
From Verif Require Import PyBase PyMore Num XReal ScalarModel ProductModel.
Import ListNotations.
Open Scope R_scope.

(** ** Segmentation and bit allocation, saq.py 136-222 *)

Definition xltb (x y : xr) : bool :=
  match x, y with NaN, _ | _, NaN => false | _, _ => negb (xleb y x) end.

Definition xeq0 (x : xr) : bool :=
  match x with Fin r => if Req_EM_T r 0 then true else false | _ => false end.

Section Segments.
  (** [rnd]: rounding of float64 arithmetic. *)
  Context (rnd : R -> R).

  (** [np.sum] and Python's [sum], left to right. *)
  Definition xsum (l : list xr) : xr := fold_left (xadd rnd) l (Fin 0).

  (** [np.cumsum]. *)
  Fixpoint cumsum_from (acc : xr) (l : list xr) : list xr :=
    match l with
    | [] => []
    | x :: l' => let s := xadd rnd acc x in s :: cumsum_from s l'
    end.
  Definition cumsum (l : list xr) : list xr :=
    match l with [] => [] | x :: l' => x :: cumsum_from x l' end.

  (** saq.py 147-153; [variance] is the result of np.var.  No dimension: 1.0 / 0. *)
  Definition explained (variance : list xr) : result (list xr) :=
    let total := xsum variance in
    if xeq0 total
    then match variance with
         | [] => Raise EZeroDiv
         | _ => Ok (repeat (Fin (rnd (1 / INR (length variance)))) (length variance))
         end
    else Ok (map (fun v => xdiv rnd v total) variance).

  (** [cumulative_variance[i - 1]]; index -1 is the last entry. *)
  Definition cum_to (cum : list xr) (i : nat) : xr :=
    if Nat.eqb i 0 then last cum NaN else nth (i - 1) cum NaN.

  (** saq.py 171-177 and 196-202. *)
  Definition seg_variance (cum : list xr) (start stop : nat) : xr :=
    if Nat.eqb start 0 then cum_to cum stop
    else xsub rnd (cum_to cum stop) (cum_to cum start).

  (** saq.py 170-184: one cell of [dp] and [backtrack], from the previous row of [dp]. *)
  Definition relax (cum prev : list xr) (stop : nat) (cell : xr * nat) (start : nat) : xr * nat :=
    let cost := xadd rnd (nth start prev PInf) (xsub rnd (Fin 1) (seg_variance cum start stop)) in
    if xltb cost (fst cell) then (cost, start) else cell.
  Definition dp_cell (cum prev : list xr) (seg stop : nat) : xr * nat :=
    if Nat.ltb stop seg then (PInf, 0%nat)
    else fold_left (relax cum prev stop) (seq (seg - 1) (stop - (seg - 1))) (PInf, 0%nat).

  (** saq.py 169: row [seg] of the two tables, positions 0..dim. *)
  Definition dp_row (cum prev : list xr) (dim seg : nat) : list (xr * nat) :=
    map (dp_cell cum prev seg) (seq 0 (dim + 1)).

  (** saq.py 168: the rows [n, ..., 1] of [backtrack], the last computed first. *)
  Fixpoint dp_rows (cum : list xr) (dim n : nat) : list xr * list (list nat) :=
    match n with
    | O => (Fin 0 :: repeat PInf dim, [])
    | S n' =>
        let (prev, backs) := dp_rows cum dim n' in
        let row := dp_row cum prev dim n in
        (map fst row, map snd row :: backs)
    end.

  (** saq.py 186-192. *)
  Fixpoint reconstruct (backs : list (list nat)) (pos : nat) (acc : list (nat * nat)) : list (nat * nat) :=
    match backs with
    | [] => acc
    | back :: backs' => let start := nth pos back 0%nat in reconstruct backs' start ((start, pos) :: acc)
    end.

  (** [int(x)]: truncation; NaN raises ValueError and an infinity OverflowError, both wrapped in
      the same QuantizationError by [train]; one exception here. *)
  Definition trunc (r : R) : Z := if Rle_dec 0 r then Int_part r else (- Int_part (- r))%Z.
  Definition int_of (x : xr) : result Z :=
    match x with Fin r => Ok (trunc r) | _ => Raise EValue end.

  (** saq.py 205-215. *)
  Fixpoint allocate (total_bits remaining : Z) (total : xr) (vars : list xr) : result (list Z) :=
    match vars with
    | [] => Ok []
    | [_] => Ok [remaining]
    | v :: vars' =>
        rbind (int_of (xmul rnd (Fin (IZR total_bits)) (xdiv rnd v total))) (fun z =>
        let bits := Z.max 1 z in
        rbind (allocate total_bits (remaining - bits) total vars') (fun rest => Ok (bits :: rest)))
    end.

  (** saq.py 136-222 from the variance profile on: the segments and their bits.  The mutation of
      [n_segments] at 159-160 shows in the number of segments.  [np.var] (147) and the
      [explained_variance_ratio_] kept for get_stats (217-222) are not modelled. *)
  Definition saq_segments (total_bits : Z) (n_segments : nat) (variance : list xr)
      : result (list (nat * nat) * list Z) :=
    rbind (explained variance) (fun ev =>
    let cum := cumsum ev in
    let dim := length variance in
    let n := if Nat.ltb dim n_segments then dim else n_segments in
    let bounds := reconstruct (snd (dp_rows cum dim n)) dim [] in
    let vars := map (fun b => seg_variance cum (fst b) (snd b)) bounds in
    rbind (allocate total_bits total_bits (xsum vars) vars) (fun bits => Ok (bounds, bits))).
End Segments.

(** saq.py 238-244: clusters of a segment; a negative shift raises. *)
Definition saq_clusters (bits : Z) (n_vectors : nat) : result nat :=
  if (30 <=? bits)%Z then Ok (Nat.max 2 n_vectors)
  else if (bits <? 0)%Z then Raise EValue
  else Ok (Nat.min (Nat.max 2 (2 ^ Z.to_nat bits)) n_vectors).

(** saq.py 110-113 up to the k-means fits: segments, bits and cluster numbers; k-means itself never
    fails training (saq.py 250-262 falls back to the mean). *)
Definition saq_plan (rnd : R -> R) (total_bits : Z) (n_segments n_vectors : nat) (variance : list xr)
    : result (list (nat * nat) * list Z * list nat) :=
  rbind (saq_segments rnd total_bits n_segments variance) (fun '(bounds, bits) =>
  rbind (rmap (fun b => saq_clusters b n_vectors) bits) (fun ks => Ok (bounds, bits, ks))).

(** ** Segment quantizers and code adjustment *)

Section Codes.
  Context {F : Type} `{Num F}.
  (** [float(n)], and the tolerance 1e-6. *)
  Context (of_nat : nat -> F) (tol : F).

  (** A segment: its bounds and centroids (saq.py 264-268). *)
  Definition segment : Type := (nat * nat * list (list F)).
  Definition seg_start (s : segment) : nat := fst (fst s).
  Definition seg_end (s : segment) : nat := snd (fst s).
  Definition seg_book (s : segment) : list (list F) := snd s.

  (** saq.py 277-282, one entry: |x|^2 + |c|^2 - 2 x.c. *)
  Definition expanded_dist (x c : list F) : result F :=
    if Nat.eqb (length x) (length c)
    then Ok (nsub (nadd (dot x x) (dot c c)) (nmul (nadd none none) (dot x c)))
    else Raise EValue.

  (** saq.py 270-283 for a matrix of rows: nothing to compare gives zeros. *)
  Definition seg_quantize (book : list (list F)) (rows : list (list F)) : result (list Z) :=
    if match rows, book with
       | [] :: _, _ => true
       | _, [] :: _ => true
       | [], _ => true
       | _, _ => false
       end
    then Ok (map (fun _ => 0%Z) rows)
    else rmap (fun x => rbind (rmap (expanded_dist x) book) (fun ds =>
                        rbind (argmin ds) (fun c => Ok (Z.of_nat c)))) rows.

  (** saq.py 285-293: the centroids of the codes; width zero gives empty rows. *)
  Definition seg_dequantize (book : list (list F)) (codes : list Z) : result (list (list F)) :=
    match book with
    | [] :: _ => Ok (map (fun _ => []) codes)
    | _ => rmap (py_index book) codes
    end.

  (** [mat[:, start:end] = rows]; as many rows on both sides. *)
  Definition assign_cols (start stop : nat) (rows mat : list (list F)) : result (list (list F)) :=
    if Nat.eqb (length rows) (length mat)
    then rmap (fun p => assign_cut start stop (fst p) (snd p)) (combine rows mat)
    else Raise EValue.

  (** saq.py 441-460: one segment after the other, codes given per segment. *)
  Fixpoint deq_segments (segs : list segment) (codes : list (list Z)) (mat : list (list F)) : result (list (list F)) :=
    match segs, codes with
    | [], _ => Ok mat
    | s :: segs', cs :: codes' =>
        rbind (seg_dequantize (seg_book s) cs) (fun rows =>
        let wide := match rows with [] :: _ => false | _ => Nat.ltb (seg_start s) (seg_end s) end in
        rbind (if wide then assign_cols (seg_start s) (seg_end s) rows mat else Ok mat) (fun mat' =>
        deq_segments segs' codes' mat'))
    | _ :: _, [] => Raise EIndexRange
    end.

  (** saq.py 435-462, for a list of codes per segment. *)
  Definition dequantize_segments (dim : nat) (segs : list segment) (codes : list (list Z)) : result (list (list F)) :=
    let n := match codes with [] => 0%nat | c :: _ => length c end in
    deq_segments segs codes (repeat (repeat nzero dim) n).

  (** [np.mean((a - b) ** 2)] for matrices of the same shape; [None] is NaN, the mean of nothing. *)
  Definition mean_sq (a b : list (list F)) : option F :=
    let d := concat (map (fun p => zip_with (fun x y => nmul (nsub x y) (nsub x y)) (fst p) (snd p)) (combine a b)) in
    match d with
    | [] => None
    | _ => Some (ndiv (nsum d) (of_nat (length d)))
    end.

  (** Same shape; numpy would also broadcast width one, which is not modelled: a trained segment
      has centroids of the segment's width. *)
  Definition same_shape (a b : list (list F)) : bool :=
    Nat.eqb (length a) (length b) && forallb (fun p => Nat.eqb (length (fst p)) (length (snd p))) (combine a b).

  (** [mat[:, start:end]]. *)
  Definition cols (start stop : nat) (mat : list (list F)) : list (list F) := map (cut start stop) mat.

  (** saq.py 362-401 for one segment.  The candidate input [rec + (x - rec)] is computed as the
      code does. *)
  Definition adjust_seg (xs : list (list F)) (s : segment) (codes : list Z) (rec : list (list F)) (improvement : F)
      : result (list Z * list (list F) * F) :=
    let start := seg_start s in let stop := seg_end s in
    let rec_s := cols start stop rec in
    let xs_s := cols start stop xs in
    let residual := map (fun p => zip_with nsub (fst p) (snd p)) (combine xs_s rec_s) in
    let input := map (fun p => zip_with nadd (fst p) (snd p)) (combine rec_s residual) in
    let new_codes := match seg_quantize (seg_book s) input with Ok c => c | Raise _ => codes end in
    rbind (seg_dequantize (seg_book s) new_codes) (fun new_rows =>
    if negb (same_shape xs_s new_rows && same_shape xs_s rec_s) then Raise EValue else
    match mean_sq xs_s new_rows, mean_sq xs_s rec_s with
    | Some new_error, Some old_error =>
        if nltb new_error old_error
        then rbind (assign_cols start stop new_rows rec) (fun rec' =>
             Ok (new_codes, rec', nadd improvement (nsub old_error new_error)))
        else Ok (codes, rec, improvement)
    | _, _ => Ok (codes, rec, improvement)
    end).

  (** saq.py 362-401. *)
  Fixpoint adjust_segs (xs : list (list F)) (segs : list segment) (codes : list (list Z)) (rec : list (list F))
      (improvement : F) : result (list (list Z) * F) :=
    match segs, codes with
    | s :: segs', c :: codes' =>
        rbind (adjust_seg xs s c rec improvement) (fun '(c', rec', imp') =>
        rbind (adjust_segs xs segs' codes' rec' imp') (fun '(cs, imp) => Ok (c' :: cs, imp)))
    | [], _ => Ok (codes, improvement)
    | _ :: _, [] => Raise EIndexRange
    end.

  (** saq.py 358-406. *)
  Fixpoint adjust (iters : nat) (dim : nat) (segs : list segment) (xs : list (list F)) (codes : list (list Z))
      : result (list (list Z)) :=
    match iters with
    | O => Ok codes
    | S iters' =>
        rbind (dequantize_segments dim segs codes) (fun rec =>
        rbind (adjust_segs xs segs codes rec nzero) (fun '(codes', improvement) =>
        if nltb improvement tol then Ok codes' else adjust iters' dim segs xs codes'))
    end.

  (** saq.py 318-329: the initial codes. *)
  Definition initial_codes (segs : list segment) (xs : list (list F)) : result (list (list Z)) :=
    rmap (fun s => seg_quantize (seg_book s) (cols (seg_start s) (seg_end s) xs)) segs.

  (** saq.py 409: from codes per segment to codes per vector; no array to stack raises. *)
  Definition by_vector (n : nat) (codes : list (list Z)) : result (list (list Z)) :=
    match codes with
    | [] => Raise EValue
    | _ => Ok (map (fun r => map (fun c => nth r c 0%Z) codes) (seq 0 n))
    end.

  (** saq.py 312-336 on the vectors in normalised space. *)
  Definition saq_encode (iters dim : nat) (segs : list segment) (xs : list (list F)) : result (list (list Z)) :=
    rbind (initial_codes segs xs) (fun codes =>
    rbind (adjust iters dim segs xs codes) (fun codes' => by_vector (length xs) codes')).
End Codes.

(** ** Search with rescoring, saq.py 485-613 *)

Section Rescore.
  Context {F : Type} `{Num F}.
  (** [argsort]: np.argsort.  [decode]: dequantize of one code row, saq.py 464-483. *)
  Context (argsort : list F -> list nat) (decode : list Z -> result (list F)).

  (** saq.py 514-523 and 595-604. *)
  Definition cosine_of (q v : list F) : result F :=
    if negb (Nat.eqb (length q) (length v)) then Raise EValue
    else if neqb (norm q) nzero || neqb (norm v) nzero then Ok none
    else Ok (nsub none (ndiv (dot q v) (nmul (norm q) (norm v)))).

  (** saq.py 485-523. *)
  Definition saq_distance (dim : nat) (query : list F) (code : list Z) : result F :=
    rbind (decode code) (fun v => cosine_of (align dim query) v).

  (** saq.py 555-574; the batches of 1000 only group the calls. *)
  Definition initial_search (dim : nat) (rescore_top_k : Z) (query : list F) (codes : list (list Z)) : result (list nat) :=
    rbind (rmap (saq_distance dim query) codes) (fun ds => Ok (slice_to rescore_top_k (argsort ds))).

  (** saq.py 576-613. *)
  Definition rescore (dim : nat) (full : list (list F)) (query : list F) (cands : list nat) (top_k : Z)
      : result (list (nat * F)) :=
    rbind (rmap (fun i => py_index full (Z.of_nat i)) cands) (fun vecs =>
    rbind (rmap (cosine_of (align dim query)) vecs) (fun ds =>
    rmap (fun j => rbind (py_index cands (Z.of_nat j)) (fun i =>
                   rbind (py_index ds (Z.of_nat j)) (fun d => Ok (i, d)))) (slice_to top_k (argsort ds)))).

  (** saq.py 525-553: indices and distances, as pairs. *)
  Definition saq_search (dim : nat) (full : option (list (list F))) (rescore_top_k : Z) (query : list F)
      (codes : list (list Z)) (top_k : Z) : result (list (nat * F)) :=
    match full with
    | None => Raise EQuant
    | Some vecs =>
        rbind (initial_search dim rescore_top_k query codes) (fun cands =>
        rescore dim vecs query cands top_k)
    end.
End Rescore.
