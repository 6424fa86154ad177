(** Model of /repo/src/valori/indices/flat.py: [FlatIndex]. *)

From Coq Require Import List Arith ZArith NArith Bool.
From Verif Require Import PyBase Payload StorageModel StorageSpec StorageRun Num ClientModel.
Import ListNotations.
Open Scope py_scope.

(** Fields of [FlatIndex]; flat.py:25-31.  [storage_backend] is the second component of the
    method state; [initialize] sets it together with [_initialized], so the tests
    [if sb is None] (flat.py:59-60, 106-107, 172-173, 203-204) never succeed. *)
Record flat (F : Type) : Type := MkFlat {
  f_ids : list pystr;
  f_cache : dict pystr (list F);
  f_count : Z;
  f_init : bool
}.
Arguments MkFlat {F} _ _ _ _.
Arguments f_ids {F} _.
Arguments f_cache {F} _.
Arguments f_count {F} _.
Arguments f_init {F} _.

Section Flat.
  Context {F Mt S : Type} `{Num F}.
  Context (C : storage_class S (list F) Mt) (mt : metric).

  Let W : Type := (flat F * S)%type.

  (** [FlatIndex.__init__]; flat.py:25-31. *)
  Definition flat_new : flat F := MkFlat [] [] 0 false.

  (** Field assignments. *)
  Definition fset_ids (l : list pystr) (x : flat F) : flat F :=
    MkFlat l (f_cache x) (f_count x) (f_init x).
  Definition fset_cache (d : dict pystr (list F)) (x : flat F) : flat F :=
    MkFlat (f_ids x) d (f_count x) (f_init x).
  Definition fset_init (b : bool) (x : flat F) : flat F :=
    MkFlat (f_ids x) (f_cache x) (f_count x) b.
  (** [self._vector_count = len(self.vector_ids)]; flat.py:43,82,186. *)
  Definition fset_count (x : flat F) : flat F :=
    MkFlat (f_ids x) (f_cache x) (Z.of_nat (length (f_ids x))) (f_init x).

  (** [FlatIndex.initialize]; flat.py:33-45.  The cache is left as it is. *)
  Definition flat_initialize : M W unit :=
    set_ix (fset_init true) ;;;
    wrap EIndex
      (existing_ids <- on_sb (sc_list C None) ;;
       set_ix (fset_ids existing_ids) ;;;
       set_ix fset_count).

  (** The loop of flat.py:62-80, from row [i] on. *)
  Fixpoint flat_insert_rows (fresh : nat -> pystr) (metadata : option (list (option Mt)))
      (i : nat) (rows : list (list F)) : M W (list pystr) :=
    match rows with
    | [] => ret []
    | vector :: rows' =>
        let vector_id := fresh i in
        _ <- on_sb (sc_store C vector_id vector (row_meta metadata i)) ;;
        set_ix (fun x => fset_ids (f_ids x ++ [vector_id]) x) ;;;
        set_ix (fun x => fset_cache (dset vector_id vector (f_cache x)) x) ;;;
        ids <- flat_insert_rows fresh metadata (1 + i) rows' ;;
        ret (vector_id :: ids)
    end.

  (** [FlatIndex.insert]; flat.py:47-86. *)
  Definition flat_insert (fresh : nat -> pystr) (vectors : ndarray F)
      (metadata : option (list (option Mt))) : M W (list pystr) :=
    x <- get_ix ;;
    if negb (f_init x) then raise EIndex
    else match vectors with
         | Mat rows =>
             wrap EIndex
               (inserted_ids <- flat_insert_rows fresh metadata 0 rows ;;
                set_ix fset_count ;;;
                ret inserted_ids)
         | _ => raise EIndex
         end.

  (** The loop of flat.py:109-120: collect id and vector, from the cache or from storage. *)
  Fixpoint flat_load (ids : list pystr) : M W (list (pystr * list F)) :=
    match ids with
    | [] => ret []
    | vector_id :: ids' =>
        x <- get_ix ;;
        match dget vector_id (f_cache x) with
        | Some vector =>
            rest <- flat_load ids' ;; ret ((vector_id, vector) :: rest)
        | None =>
            result <- on_sb (sc_retrieve C vector_id) ;;
            match result with
            | None => flat_load ids'
            | Some (vector, _) =>
                set_ix (fun x => fset_cache (dset vector_id vector (f_cache x)) x) ;;;
                rest <- flat_load ids' ;; ret ((vector_id, vector) :: rest)
            end
        end
    end.

  (** The body of the loop flat.py:141-153: fetch the metadata of a selected row.  Unpacking
      [None] raises TypeError. *)
  Definition flat_result (valid_ids : list pystr) (distances : list F) (idx : nat)
      : M W (hit F Mt) :=
    match nth_error valid_ids idx, nth_error distances idx with
    | Some vector_id, Some d =>
        result <- on_sb (sc_retrieve C vector_id) ;;
        match result with
        | None => raise EType
        | Some (_, metadata) => ret (MkHit vector_id d metadata)
        end
    | _, _ => raise EIndexRange
    end.

  (** The loop of flat.py:141-153. *)
  Definition flat_results (valid_ids : list pystr) (distances : list F) (idxs : list nat)
      : M W (list (hit F Mt)) :=
    mapM idxs (flat_result valid_ids distances).

  (** [FlatIndex.search]; flat.py:88-160.  [argsort] is [np.argsort], whose order among equal
      distances is unspecified. *)
  Definition flat_search (argsort : list F -> list nat) (query : ndarray F) (k : Z)
      : M W (list (hit F Mt)) :=
    x <- get_ix ;;
    if negb (f_init x) then raise EIndex
    else match query with
         | Vec q =>
             wrap EIndex
               (if Nat.eqb (length (f_ids x)) 0 then ret []
                else
                  let k := Z.min k (Z.of_nat (length (f_ids x))) in
                  loaded <- flat_load (f_ids x) ;;
                  if Nat.eqb (length loaded) 0 then ret []
                  else
                    distances <- lift (matrix_distances mt q (map snd loaded)) ;;
                    flat_results (map fst loaded) distances (slice_to k (argsort distances)))
         | _ => raise EIndex
         end.

  (** The loop of flat.py:175-184; [success] starts as True and is cleared by a failed
      deletion. *)
  Fixpoint flat_delete_ids (ids : list pystr) (success : bool) : M W bool :=
    match ids with
    | [] => ret success
    | vector_id :: ids' =>
        deleted <- on_sb (sc_delete C vector_id) ;;
        set_ix (fun x => if memb vector_id (f_ids x)
                         then fset_ids (remove_first vector_id (f_ids x)) x else x) ;;;
        set_ix (fun x => fset_cache (ddel vector_id (f_cache x)) x) ;;;
        flat_delete_ids ids' (if deleted then success else false)
    end.

  (** [FlatIndex.delete]; flat.py:162-190. *)
  Definition flat_delete (ids : list pystr) : M W bool :=
    x <- get_ix ;;
    if negb (f_init x) then raise EIndex
    else wrap EIndex
           (success <- flat_delete_ids ids true ;;
            set_ix fset_count ;;;
            ret success).

  (** [FlatIndex.update]; flat.py:192-214. *)
  Definition flat_update (id : pystr) (vector : list F) (metadata : option Mt) : M W bool :=
    x <- get_ix ;;
    if negb (f_init x) then raise EIndex
    else wrap EIndex
           (updated <- on_sb (sc_update C id vector metadata) ;;
            if negb updated then ret false
            else set_ix (fun x => fset_cache (dset id vector (f_cache x)) x) ;;; ret true).

  (** [FlatIndex.get_stats]["vector_count"]; flat.py:216-227. *)
  Definition flat_count (x : flat F) : option Z :=
    if negb (f_init x) then None else Some (f_count x).

  (** [FlatIndex.close]; flat.py:229-234. *)
  Definition flat_close : M W unit := set_ix (fun _ => MkFlat [] [] 0 false).

  (** The class; the oracle of a call is its [np.argsort]. *)
  Definition flat_class : index_class (flat F) S F Mt (list F -> list nat) := {|
    ix_new := flat_new;
    ix_init := fun _ => flat_initialize;
    ix_insert := fun _ => flat_insert;
    ix_search := flat_search;
    ix_delete := flat_delete;
    ix_update := fun _ => flat_update;
    ix_count := flat_count;
    ix_close := flat_close
  |}.
End Flat.
