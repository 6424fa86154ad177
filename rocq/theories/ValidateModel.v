(** Model of utils/validation.py. *)

From Coq Require Import String List Arith ZArith NArith Bool.
From Verif Require Import PyBase PyMore PyValue.
Import ListNotations.
Open Scope nat_scope.

(** A raised [ValidationError] when the condition holds, else go on. *)
Definition refuse {A} (b : bool) (k : result A) : result A := if b then Raise EValidation else k.

(** [len < bound] and [len > bound] when the bound is not [None]. *)
Definition below (n : nat) (b : option Z) : bool :=
  match b with Some m => (Z.of_nat n <? m)%Z | None => false end.
Definition above (n : nat) (b : option Z) : bool :=
  match b with Some m => (m <? Z.of_nat n)%Z | None => false end.

(** [dtype is not None and a.dtype != dtype]. *)
Definition wrong_dtype (a : ndarray) (dt : option dtype) : bool :=
  match dt with Some d => negb (eqb (a_dtype a) d) | None => false end.

(** [np.any(np.isnan(a)) or np.any(np.isinf(a))]; [np.isnan] raises TypeError on data types it
    does not know. *)
Definition not_finite (a : ndarray) : result bool :=
  match a_dtype a with
  | DNumeric _ => Ok (existsb is_nan (a_data a) || existsb is_inf (a_data a))
  | DOther _ => Raise EType
  end.

(** validation.py:12-66. *)
Definition validate_vector (vector : pyval) (min_dim max_dim : option Z) (dt : option dtype)
    (allow_zero : bool) : result bool :=
  match vector with
  | PArray a =>
      match a_shape a with
      | [n] =>
          refuse (n =? 0)
          (refuse (below n min_dim)
          (refuse (above n max_dim)
          (refuse (wrong_dtype a dt)
          (refuse (negb allow_zero && forallb is_zero (a_data a))
          (rbind (not_finite a) (fun b =>
           refuse b (Ok true)))))))
      | _ => Raise EValidation
      end
  | _ => Raise EValidation
  end.

(** The rows of a matrix with [n] rows of [d] elements. *)
Fixpoint chunk {A} (n d : nat) (l : list A) : list (list A) :=
  match n with
  | O => []
  | S n' => firstn d l :: chunk n' d (skipn d l)
  end.

(** validation.py:69-130; [consistent_dims] is not used by the code. *)
Definition validate_vectors (vectors : pyval) (min_dim max_dim : option Z) (dt : option dtype)
    (allow_zero : bool) : result bool :=
  match vectors with
  | PArray a =>
      match a_shape a with
      | [n; d] =>
          refuse (n =? 0)
          (refuse (d =? 0)
          (refuse (below d min_dim)
          (refuse (above d max_dim)
          (refuse (wrong_dtype a dt)
          (refuse (negb allow_zero && existsb (forallb is_zero) (chunk n d (a_data a)))
          (rbind (not_finite a) (fun b =>
           refuse b (Ok true))))))))
      | _ => Raise EValidation
      end
  | _ => Raise EValidation
  end.

(** The classes [isinstance] is asked about in a configuration schema. *)
Inductive pytype : Type := TNone | TBool | TInt | TFloat | TStr | TList | TTuple | TDict | TArray.

(** [isinstance(v, t)]. *)
Definition isinstance (v : pyval) (t : pytype) : bool :=
  match v, t with
  | PNone, TNone | PBool _, (TBool | TInt) | PInt _, TInt | PFloat _, TFloat | PStr _, TStr
  | PList _, TList | PTuple _, TTuple | PDict _, TDict | PArray _, TArray => true
  | _, _ => false
  end.

(** validation.py:172-178: the loop over [value_types]; a tuple of types is a list here. *)
Fixpoint check_types (d : list (pyval * pyval)) (ts : list (pystr * list pytype)) : result unit :=
  match ts with
  | [] => Ok tt
  | (key, types) :: ts' =>
      match pd_get d (PStr key) with
      | Some v => refuse (negb (existsb (isinstance v) types)) (check_types d ts')
      | None => check_types d ts'
      end
  end.

(** [value < min_val or value > max_val] with a number on the left. *)
Definition out_of_range (x : pyfloat) (lo hi : pyval) : result bool :=
  match as_float lo with
  | None => Raise EType
  | Some l =>
      if flt x l then Ok true
      else match as_float hi with
           | None => Raise EType
           | Some h => Ok (flt h x)
           end
  end.

(** validation.py:181-189: the loop over [value_ranges]. *)
Fixpoint check_ranges (d : list (pyval * pyval)) (rs : list (pystr * (pyval * pyval))) : result unit :=
  match rs with
  | [] => Ok tt
  | (key, (lo, hi)) :: rs' =>
      match pd_get d (PStr key) with
      | Some v =>
          match as_float v with
          | Some x => rbind (out_of_range x lo hi) (fun b => refuse b (check_ranges d rs'))
          | None => check_ranges d rs'
          end
      | None => check_ranges d rs'
      end
  end.

(** validation.py:133-191.  Schemas are given as lists; an absent [required_keys],
    [value_types] or [value_ranges] is an empty list (an empty one is skipped as well). *)
Definition validate_config (config : pyval) (required : list pystr) (allowed : option (list pystr))
    (types : list (pystr * list pytype)) (ranges : list (pystr * (pyval * pyval))) : result bool :=
  match config with
  | PDict d =>
      refuse (existsb (fun k => match pd_get d (PStr k) with None => true | Some _ => false end) required)
      (refuse (match allowed with
               | Some ks => existsb (fun kv => negb (existsb (fun k => key_eqb (fst kv) (PStr k)) ks)) d
               | None => false
               end)
      (rbind (check_types d types) (fun _ =>
       rbind (check_ranges d ranges) (fun _ => Ok true))))
  | _ => Raise EValidation
  end.

(** validation.py:207-215. *)
Definition valid_metrics : list pystr :=
  [py "cosine"; py "euclidean"; py "dot_product"; py "manhattan"; py "chebyshev"; py "hamming";
   py "jaccard"].

(** validation.py:194-225. *)
Definition validate_metric (metric : pyval) : result bool :=
  match metric with
  | PStr s => refuse (negb (memb s valid_metrics)) (Ok true)
  | _ => Raise EValidation
  end.

(** validation.py:228-251. *)
Definition validate_k (k : pyval) (max_k : option Z) : result bool :=
  match as_int k with
  | None => Raise EValidation
  | Some z =>
      refuse (z <=? 0)%Z
      (refuse (match max_k with Some m => (m <? z)%Z | None => false end) (Ok true))
  end.

(** validation.py:254-273. *)
Definition validate_id (id : pyval) : result bool :=
  match id with
  | PStr s => refuse (length (py_strip s) =? 0) (Ok true)
  | _ => match as_int id with Some _ => Ok true | None => Raise EValidation end
  end.

(** validation.py:295-299. *)
Fixpoint check_ids (l : list pyval) : result unit :=
  match l with
  | [] => Ok tt
  | x :: l' =>
      match validate_id x with
      | Ok _ => check_ids l'
      | Raise e => Raise e
      end
  end.

(** [set(l)], in order of first appearance. *)
Fixpoint py_set (l : list pyval) : list pyval :=
  match l with
  | [] => []
  | x :: l' => x :: filter (fun y => negb (key_eqb x y)) (py_set l')
  end.

(** validation.py:276-305. *)
Definition validate_ids (ids : pyval) : result bool :=
  match ids with
  | PList l =>
      refuse (length l =? 0)
      (rbind (check_ids l) (fun _ =>
       refuse (negb (length l =? length (py_set l))) (Ok true)))
  | _ => Raise EValidation
  end.

(** [json.dumps(v)] succeeds.  Non-finite floats are written as NaN and Infinity; keys may be
    strings, numbers, booleans and None.  Cyclic or extremely deep values and integers of
    thousands of digits are not modelled. *)
Definition json_key (v : pyval) : bool :=
  match v with PStr _ | PInt _ | PFloat _ | PBool _ | PNone => true | _ => false end.

Fixpoint json_ok (v : pyval) : bool :=
  match v with
  | PNone | PBool _ | PInt _ | PFloat _ | PStr _ => true
  | PList l | PTuple l => forallb json_ok l
  | PDict d => forallb (fun kv => json_key (fst kv) && json_ok (snd kv)) d
  | PArray _ | PObj _ => false
  end.

(** validation.py:328-340. *)
Fixpoint check_items (d : list (pyval * pyval)) : result unit :=
  match d with
  | [] => Ok tt
  | (k, v) :: d' =>
      match k with
      | PStr _ => refuse (negb (json_ok v)) (check_items d')
      | _ => Raise EValidation
      end
  end.

(** validation.py:308-342. *)
Definition validate_metadata (metadata : pyval) : result bool :=
  match metadata with
  | PNone => Ok true
  | PDict d => rbind (check_items d) (fun _ => Ok true)
  | _ => Raise EValidation
  end.
