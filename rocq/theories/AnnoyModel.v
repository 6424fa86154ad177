(** The Annoy index.

    Source: /repo/src/valori/indices/annoy.py.  The tree library is not modelled: which neighbours
    it finds and with which distances is an argument of each search.  [save] and [load]
    (annoy.py:361-414) and building on disk (annoy.py:74-77, 213-220) are not modelled. *)

From Coq Require Import List Arith ZArith NArith Bool.
From Verif Require Import PyBase PyMore Payload StorageModel StorageRun Num SimilarityModel ClientModel
  LshModel.
Import ListNotations.
Open Scope py_scope.

(** The metrics the constructor accepts; annoy.py:43-44. *)
Inductive annoy_metric : Type := AAngular | AEuclidean | AManhattan | AHamming | ADot.

(** The library object: the items added, newest first, and whether its trees are built. *)
Record annoy_lib (F : Type) : Type := MkLib { al_items : list (Z * list F); al_built : bool }.
Arguments MkLib {F} _ _.
Arguments al_items {F} _.
Arguments al_built {F} _.

(** Fields of [AnnoyIndex]; annoy.py:46-53. *)
Record annoy (F Mt : Type) : Type := MkAnnoy {
  a_vectors : list (option (list F));
  a_metadata : list (option Mt);
  a_dim : option nat;
  a_next : Z;
  a_lib : option (annoy_lib F);
  a_built : bool;
  a_init : bool
}.
Arguments MkAnnoy {F Mt} _ _ _ _ _ _ _.
Arguments a_vectors {F Mt} _.
Arguments a_metadata {F Mt} _.
Arguments a_dim {F Mt} _.
Arguments a_next {F Mt} _.
Arguments a_lib {F Mt} _.
Arguments a_built {F Mt} _.
Arguments a_init {F Mt} _.

(** What the library decides: the neighbours found among its items, and whether an item may be
    added after the trees are built. *)
Record annoy_orc (F : Type) : Type := MkAorc {
  ao_nns : list (Z * list F) -> list F -> Z -> list (Z * F);
  ao_late : bool
}.
Arguments MkAorc {F} _ _.
Arguments ao_nns {F} _ _ _ _.
Arguments ao_late {F} _.

Section Annoy.
  Context {F Mt : Type} `{Num F} `{Payload (list F) Mt}.
  (** The metric, and the dictionary [{}] of annoy.py:95. *)
  Context (amt : annoy_metric) (empty : Mt).
  Notation ann := (annoy F Mt).

  (** Single-field assignments. *)
  Definition aset_vectors vs (x : ann) : ann :=
    MkAnnoy vs (a_metadata x) (a_dim x) (a_next x) (a_lib x) (a_built x) (a_init x).
  Definition aset_metadata ms (x : ann) : ann :=
    MkAnnoy (a_vectors x) ms (a_dim x) (a_next x) (a_lib x) (a_built x) (a_init x).
  Definition aset_dim d (x : ann) : ann :=
    MkAnnoy (a_vectors x) (a_metadata x) d (a_next x) (a_lib x) (a_built x) (a_init x).
  Definition aset_next n (x : ann) : ann :=
    MkAnnoy (a_vectors x) (a_metadata x) (a_dim x) n (a_lib x) (a_built x) (a_init x).
  Definition aset_lib l (x : ann) : ann :=
    MkAnnoy (a_vectors x) (a_metadata x) (a_dim x) (a_next x) l (a_built x) (a_init x).
  Definition aset_built b (x : ann) : ann :=
    MkAnnoy (a_vectors x) (a_metadata x) (a_dim x) (a_next x) (a_lib x) b (a_init x).
  Definition aset_init b (x : ann) : ann :=
    MkAnnoy (a_vectors x) (a_metadata x) (a_dim x) (a_next x) (a_lib x) (a_built x) b.

  (** The constructor; annoy.py:28-56. *)
  Definition an_new : ann := MkAnnoy [] [] None 0 None false false.

  (** [initialize] without building on disk; annoy.py:69-79. *)
  Definition an_initialize : M ann unit := modify (aset_init true).

  (** [self._annoy_index.add_item(id, vector)]; annoy.py:196.  [None] has no such method; a
      negative id raises IndexError. *)
  Definition an_add_item (o : annoy_orc F) (id : Z) (v : list F) : M ann unit :=
    x <- get ;;
    match a_lib x with
    | None => raise EAttr
    | Some l =>
        if (id <? 0)%Z then raise EIndexRange
        else if al_built l && negb (ao_late o) then raise EValori
        else modify (aset_lib (Some (MkLib ((id, v) :: al_items l) (al_built l))))
    end.

  (** One iteration of annoy.py:187-198. *)
  Definition an_add_one (o : annoy_orc F) (v : list F) (m : option Mt) : M ann Z :=
    x <- get ;;
    let vector_id := a_next x in
    modify (aset_next (vector_id + 1)) ;;;
    modify (fun x => aset_vectors (a_vectors x ++ [Some v]) x) ;;;
    d <- lift (copy_meta m) ;;
    modify (fun x => aset_metadata (a_metadata x ++ [Some d]) x) ;;;
    an_add_item o vector_id v ;;;
    ret vector_id.

  (** [add]; annoy.py:152-200. *)
  Definition an_add (o : annoy_orc F) (vectors : ndarray F) (metadata : list (option Mt))
      : M ann (list Z) :=
    x <- get ;;
    if negb (a_init x) then raise EIndex
    else match vectors with
    | Nd => raise EType
    | Vec v => if negb (Nat.eqb (length v) (length metadata)) then raise EIndex
               else raise EIndexRange
    | Mat rows =>
        if negb (Nat.eqb (length rows) (length metadata)) then raise EIndex
        else
          match a_dim x with
          | None => modify (aset_dim (Some (width rows))) ;;; modify (aset_lib (Some (MkLib [] false)))
          | Some _ => ret tt
          end ;;;
          x1 <- get ;;
          match a_dim x1 with
          | None => raise EAssert                                   (* not reached *)
          | Some dim =>
              if negb (Nat.eqb (width rows) dim) then raise EIndex
              else
                forM rows (fun v => lift (validate_dim dim (Vec v))) ;;;
                mapM (combine rows metadata) (fun '(v, m) => an_add_one o v m)
          end
    end.

  (** [insert]; annoy.py:81-98. *)
  Definition an_insert (o : annoy_orc F) (vectors : ndarray F) (metadata : option (list (option Mt)))
      : M ann (list pystr) :=
    n <- lift (match metadata with None => py_len vectors | Some _ => Ok 0 end) ;;
    let metadata := match metadata with None => repeat (Some empty) n | Some l => l end in
    ids <- an_add o vectors metadata ;;
    ret (map (fun i => str_nat (Z.to_nat i)) ids).

  (** One iteration of annoy.py:293-297. *)
  Definition an_remove_one (id : Z) : M ann unit :=
    x <- get ;;
    if (id <? Z.of_nat (length (a_vectors x)))%Z
    then vs <- lift (py_set_index (a_vectors x) id None) ;;
         modify (aset_vectors vs) ;;;
         ms <- lift (py_set_index (a_metadata x) id None) ;;
         modify (aset_metadata ms)
    else ret tt.

  (** [remove]; annoy.py:281-297. *)
  Definition an_remove (ids : list Z) : M ann unit :=
    x <- get ;;
    if negb (a_init x) then raise EIndex else forM ids an_remove_one.

  (** [int(id)]. *)
  Definition to_int (id : pystr) : result Z :=
    match py_int id with Some z => Ok z | None => Raise EValue end.

  (** [delete]; annoy.py:100-115. *)
  Definition an_delete (ids : list pystr) : M ann bool :=
    wrap EIndex (zs <- lift (rmap to_int ids) ;; an_remove zs ;;; ret true).

  (** [update]; annoy.py:117-150.  When [add] raises, [_next_id] keeps its temporary value. *)
  Definition an_update (o : annoy_orc F) (id : pystr) (v : list F) (metadata : option Mt)
      : M ann bool :=
    wrap EIndex
      (z <- lift (to_int id) ;;
       x <- get ;;
       if (Z.of_nat (length (a_vectors x)) <=? z)%Z then raise EIndex
       else
         m <- lift (match metadata with None => py_index (a_metadata x) z | Some _ => Ok metadata end) ;;
         an_remove [z] ;;;
         x1 <- get ;;
         let old_next_id := a_next x1 in
         modify (aset_next z) ;;;
         an_add o (Mat [v]) [m] ;;;
         modify (aset_next old_next_id) ;;;
         ret true).

  (** [build]; annoy.py:202-225.  Building the trees a second time raises. *)
  Definition an_build : M ann unit :=
    x <- get ;;
    if negb (a_init x) then raise EIndex
    else if match a_dim x with None => true | Some _ => false end &&
            negb (Nat.eqb (length (a_vectors x)) 0) then raise EIndex
    else
      match a_lib x with
      | None => ret tt
      | Some l => if al_built l then raise EValori
                  else modify (aset_lib (Some (MkLib (al_items l) true)))
      end ;;;
      modify (aset_built true).

  (** [max(a, b)] of Python: the second only if it is larger. *)
  Definition py_max (a b : F) : F := if nleb b a then a else b.
  Definition py_min (a b : F) : F := if nleb a b then a else b.
  (** The literal 2.0. *)
  Definition ntwo : F := nadd none none.

  (** [_distance_to_similarity]; annoy.py:336-359. *)
  Definition an_similarity (distance : F) : F :=
    match amt with
    | AAngular => py_max nzero (nsub none (ndiv distance ntwo))
    | AEuclidean | AManhattan => ndiv none (nadd none distance)
    | AHamming => nsub none distance
    | ADot => py_max nzero (py_min none distance)
    end.

  (** One iteration of annoy.py:266-277. *)
  Definition an_result (x : ann) (nb : Z * F) : result (option (lsh_hit F Mt)) :=
    let '(neighbor_id, distance) := nb in
    if (neighbor_id <? Z.of_nat (length (a_vectors x)))%Z
    then rbind (py_index (a_metadata x) neighbor_id) (fun m =>
         Ok (Some (MkLhit neighbor_id (an_similarity distance) m)))
    else Ok None.

  (** [search]; annoy.py:227-279. *)
  Definition an_search (o : annoy_orc F) (query : ndarray F) (k : Z) : M ann (list (lsh_hit F Mt)) :=
    x <- get ;;
    if negb (a_init x) then raise EIndex
    else if negb (a_built x) then raise EIndex
    else match a_dim x with
    | None => ret []
    | Some dim =>
        lift (validate_dim dim query) ;;;
        let q := match query with Vec q => q | _ => [] end in
        match a_lib x with
        | None => raise EAttr
        | Some l =>
            rs <- lift (rmap (an_result x) (ao_nns o (al_items l) q k)) ;;
            ret (somes rs)
        end
    end.

  (** [clear]; annoy.py:299-312. *)
  Definition an_clear : M ann unit :=
    modify (aset_vectors []) ;;; modify (aset_metadata []) ;;; modify (aset_next 0) ;;;
    modify (aset_built false) ;;; modify (aset_lib None).

  (** [close]; annoy.py:416-427. *)
  Definition an_close : M ann unit :=
    modify (aset_lib None) ;;; an_clear ;;; modify (aset_init false).

  (** [get_stats]["num_vectors"]; annoy.py:314-321. *)
  Definition an_count (x : ann) : nat := length (somes (a_vectors x)).

  (** The class as the client uses it; ids of results shown as decimal strings. *)
  Definition on_ann {S A} (m : M ann A) : M (ann * S) A := zoom fst (fun t w => (t, snd w)) m.

  Definition annoy_class {S} : index_class ann S F Mt (annoy_orc F) := {|
    ix_new := an_new;
    ix_init := fun _ => on_ann an_initialize;
    ix_insert := fun o _ vectors metadata => on_ann (an_insert o vectors metadata);
    ix_search := fun o q k =>
      on_ann (hits <- an_search o q k ;;
              ret (map (fun h => MkHit (if (lh_id h <? 0)%Z then [] else str_nat (Z.to_nat (lh_id h)))
                                       (lh_score h) (lh_meta h)) hits));
    ix_delete := fun ids => on_ann (an_delete ids);
    ix_update := fun o id v m => on_ann (an_update o id v m);
    ix_count := fun x => Some (Z.of_nat (an_count x));
    ix_close := on_ann an_close
  |}.
End Annoy.
