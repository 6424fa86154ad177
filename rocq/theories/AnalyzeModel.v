(** The analysis of a set of vectors.

    Source: /repo/src/valori/utils/debugging.py:117-259 ([VectorAnalyzer]).  Arithmetic on the counts is
    exact (rationals); the averages and standard deviations of debugging.py:153-156 and 160-182 are
    left out: over a non-empty array they do not raise. *)

From Coq Require Import List Arith ZArith NArith QArith Bool.
From Verif Require Import PyBase PyValue VecFileModel.
Import ListNotations.
Open Scope nat_scope.

(** [x == y] on array elements, debugging.py:228, 232: NaN equals nothing. *)
Definition feq (x y : pyfloat) : bool :=
  match x, y with
  | FFin a, FFin b => Qeq_bool a b
  | FInf a, FInf b => Bool.eqb a b
  | _, _ => false
  end.

(** How many elements pass a test: the sums of truth values in debugging.py:222-232. *)
Definition tally {A} (f : A -> bool) (l : list A) : nat := length (filter f l).

(** A count divided by a count, debugging.py:247-256. *)
Definition ratio (n d : nat) : Q := (inject_Z (Z.of_nat n) / inject_Z (Z.of_nat d))%Q.

(** [np.all(vector == vector[0])]; debugging.py:228, 252.  A row has elements there. *)
Definition constant_row (v : list pyfloat) : bool :=
  match v with
  | [] => true
  | x :: _ => forallb (fun y => feq y x) v
  end.

(** [np.all(vectors == 0, axis=1)], one row; debugging.py:232, 256. *)
Definition zero_row (v : list pyfloat) : bool := forallb is_zero v.

(** [_compute_quality_score] of a two-dimensional array of [w] columns; debugging.py:242-259. *)
Definition quality_score (w : nat) (rows : list (list pyfloat)) : Q :=
  let size := length rows * w in
  let nan_ratio := ratio (tally is_nan (concat rows)) size in
  let inf_ratio := ratio (tally is_inf (concat rows)) size in
  let constant_ratio := ratio (tally constant_row rows) (length rows) in
  let zero_ratio := ratio (tally zero_row rows) (length rows) in
  let score := (1 - (nan_ratio + inf_ratio) * (1 # 2) - constant_ratio * (3 # 10) - zero_ratio * (1 # 5))%Q in
  if Qle_bool score 0 then 0%Q else score.

(** The fields of the report that are modelled; debugging.py:149-158, 208-217, 234-240. *)
Record report : Type := MkReport {
  rp_count : nat;
  rp_dimension : nat;
  rp_sparsity : Q;
  rp_high : nat;
  rp_low : nat;
  rp_nan : nat;
  rp_inf : nat;
  rp_constant : nat;
  rp_zero : nat;
  rp_score : Q
}.

Section Analyze.
  (** One entry of [np.dot(normalized, normalized.T)], debugging.py:196-201, and the random choice of
      [k] of [n] positions, debugging.py:190: both arbitrary. *)
  Context (sim : list pyfloat -> list pyfloat -> pyfloat) (choice : nat -> nat -> list nat).

  (** debugging.py:188-193, with sample_size = 1000. *)
  Definition sample (rows : list (list pyfloat)) : list (list pyfloat) :=
    if 1000 <? length rows then map (fun i => nth i rows []) (choice (length rows) 1000) else rows.

  (** The entries off the diagonal, row by row; debugging.py:204-206. *)
  Definition off_diagonal (rows : list (list pyfloat)) : list pyfloat :=
    let numbered := combine (seq 0 (length rows)) rows in
    flat_map (fun ix => flat_map (fun jy => if Nat.eqb (fst ix) (fst jy) then [] else [sim (snd ix) (snd jy)])
                                 numbered) numbered.

  (** [_similarity_analysis]: the numbers of high and low similarities; debugging.py:184-217.  [np.min]
      of no values raises ValueError. *)
  Definition similarity_analysis (rows : list (list pyfloat)) : result (nat * nat) :=
    match off_diagonal (sample rows) with
    | [] => Raise EValue
    | sims => Ok (tally (fun s => flt (FFin (95 # 100)) s) sims, tally (fun s => flt s (FFin (-1 # 2))) sims)
    end.

  (** [analyze_vectors]; debugging.py:123-145.  [None] is the answer {"error": ...} for an array
      without elements.  [vectors.shape[1]] of a one-dimensional array raises IndexError
      (debugging.py:151). *)
  Definition analyze_vectors (a : varr pyfloat) : result (option report) :=
    match a with
    | V1 _ [] => Ok None
    | V1 _ _ => Raise EIndexRange
    | V2 _ w rows =>
        if Nat.eqb (length rows * w) 0 then Ok None
        else
          rbind (similarity_analysis rows) (fun hl =>
          Ok (Some (MkReport (length rows) w
                (ratio (tally (fun x => negb (is_zero x)) (concat rows)) (length rows * w))
                (fst hl) (snd hl)
                (tally is_nan (concat rows)) (tally is_inf (concat rows))
                (tally constant_row rows) (tally zero_row rows)
                (quality_score w rows))))
    end.
End Analyze.
