(** Specification of a vector database as seen by a client, independent of every index and
    storage: a list of records, what each call does to it and what it may answer. *)

From Coq Require Import List Arith ZArith NArith Lia Bool Permutation Sorted.
From Verif Require Import PyBase Payload StorageModel StorageSpec StorageRun StorageOk Num ClientModel.
Import ListNotations.

Section Spec.
  Context {F Mt Orc : Type}.

  (** Calls a user can make.  [CReopen] is a process restart. *)
  Inductive cop : Type :=
  | CInit (o : Orc) (extra : list (result unit))
  | CInsert (o : Orc) (fresh : nat -> pystr) (arr : ndarray F) (meta : option (list (option Mt)))
  | CSearch (o : Orc) (q : ndarray F) (k : Z)
  | CDelete (ids : list pystr)
  | CUpdate (o : Orc) (id : pystr) (v : list F) (m : option Mt)
  | CStats
  | CClose (extra : list (result unit))
  | CReopen.

  (** Answers. *)
  Inductive cret : Type :=
  | AUnit
  | AIds (l : list pystr)
  | AHits (l : list (hit F Mt))
  | ABool (b : bool)
  | ACounts (index storage : option Z)
  | AExn (e : exn).

  Implicit Types recs : list (entry (list F) Mt).

  (** All components answered without an exception. *)
  Fixpoint first_exn (l : list (result unit)) : option exn :=
    match l with
    | [] => None
    | Ok _ :: l' => first_exn l'
    | Raise e :: _ => Some e
    end.

  (** The metadata supplied for row [i], if any. *)
  Definition meta_of (meta : option (list (option Mt))) (i : nat) : option Mt :=
    match meta with
    | None => None
    | Some l => match nth_error l i with Some m => m | None => None end
    end.

  (** The records a batch adds. *)
  Definition batch_recs (fresh : nat -> pystr) (rows : list (list F))
      (meta : option (list (option Mt))) : list (entry (list F) Mt) :=
    map (fun '(i, row) => (fresh i, (row, meta_of meta i))) (combine (seq 0 (length rows)) rows).

  (** Deleting ids one after the other. *)
  Definition del_recs (ids : list pystr) recs : list (entry (list F) Mt) :=
    fold_left (fun r id => sp_del id r) ids recs.

  (** Was every listed id present at its turn? *)
  Fixpoint del_ans (ids : list pystr) recs : bool :=
    match ids with
    | [] => true
    | id :: ids' =>
        (match sp_find id recs with Some _ => true | None => false end)
        && del_ans ids' (sp_del id recs)
    end.

  (** State after a call.  [p]: records survive close and restart. *)
  Definition db_next (p : bool) (s : sstate (list F) Mt) (o : cop) : sstate (list F) Mt :=
    match o with
    | CInit _ extra =>
        MkS (match first_exn extra with None => true | Some _ => s_open s end)
            (if p then s_recs s else [])
    | CInsert _ fresh (Mat rows) meta =>
        if s_open s then MkS true (s_recs s ++ batch_recs fresh rows meta) else s
    | CDelete ids => if s_open s then MkS true (del_recs ids (s_recs s)) else s
    | CUpdate _ id v m =>
        if s_open s
        then match sp_find id (s_recs s) with
             | Some _ => MkS true (sp_put id (v, m) (s_recs s))
             | None => s
             end
        else s
    | CClose extra =>
        match first_exn extra with
        | None => MkS false (if p then s_recs s else [])
        | Some _ => s
        end
    | CReopen => MkS false (if p then s_recs s else [])
    | CInsert _ _ _ _ | CSearch _ _ _ | CStats => s
    end.

  (** Answers a call may give.  [search_ok]: what a search over the given records may
      answer. *)
  Definition db_ans (search_ok : list (entry (list F) Mt) -> list F -> Z -> cret -> Prop)
      (s : sstate (list F) Mt) (o : cop) (r : cret) : Prop :=
    match o with
    | CInit _ extra =>
        r = match first_exn extra with None => AUnit | Some _ => AExn EValori end
    | CClose extra => r = match first_exn extra with None => AUnit | Some e => AExn e end
    | CReopen => r = AUnit
    | _ =>
        if s_open s
        then match o with
             | CInsert _ fresh (Mat rows) _ => r = AIds (map fresh (seq 0 (length rows)))
             | CInsert _ _ _ _ => r = AExn EIndex
             | CSearch _ (Vec q) k => search_ok (s_recs s) q k r
             | CSearch _ _ _ => r = AExn EIndex
             | CDelete ids => r = ABool (del_ans ids (s_recs s))
             | CUpdate _ id _ _ =>
                 r = ABool (match sp_find id (s_recs s) with Some _ => true | None => false end)
             | CStats => r = ACounts (Some (Z.of_nat (length (s_recs s))))
                                     (Some (Z.of_nat (length (s_recs s))))
             | _ => False
             end
        else r = AExn EValori
    end.

  (** The answers of a whole history are all allowed. *)
  Fixpoint db_conforms (p : bool)
      (search_ok : list (entry (list F) Mt) -> list F -> Z -> cret -> Prop)
      (s : sstate (list F) Mt) (ops : list cop) (rets : list cret) : Prop :=
    match ops, rets with
    | [], [] => True
    | o :: ops', r :: rets' =>
        db_ans search_ok s o r /\ db_conforms p search_ok (db_next p s o) ops' rets'
    | _, _ => False
    end.

  (** The records after a history. *)
  Definition db_after (p : bool) (s : sstate (list F) Mt) (ops : list cop) : sstate (list F) Mt :=
    fold_left (db_next p) ops s.

  Section Fits.
    Context `{Payload (list F) Mt}.
    (** [reinit]: initialize() may be called on an object already in use, and may fail in an
        optional component.  [row_fits]: vectors accepted.  [orc_ok]: what the random draws and
        libraries may do. *)
    Context (reinit : bool) (row_fits : list F -> Prop) (orc_ok : Orc -> Prop).

    (** The uuids drawn for [n] rows: pairwise different, of uuid shape, not in use. *)
    Definition fresh_ids (fresh : nat -> pystr) (n : nat) (used : list pystr) : Prop :=
      (forall i j, i < n -> j < n -> fresh i = fresh j -> i = j) /\
      (forall i, i < n -> uuid_like (fresh i) /\ ~ In (fresh i) used).

    (** Admissible calls in a state: uuids are fresh, metadata entries are dictionaries of plain
        data, vectors are acceptable. *)
    Definition fits (s : sstate (list F) Mt) (o : cop) : Prop :=
      match o with
      | CInit o extra =>
          orc_ok o /\ (reinit = false -> s_open s = false /\ first_exn extra = None)
      | CInsert o fresh (Mat rows) meta =>
          orc_ok o /\
          (s_open s = true ->
           fresh_ids fresh (length rows) (map fst (s_recs s)) /\
           Forall row_fits rows /\
           (forall l m, meta = Some l -> In m l -> meta_ok m))
      | CSearch o _ _ => orc_ok o
      | CUpdate o _ v m => orc_ok o /\ row_fits v /\ meta_ok m
      | _ => True
      end.

    (** Every call of a history is admissible when it is made. *)
    Fixpoint all_fit (p : bool) (s : sstate (list F) Mt) (ops : list cop) : Prop :=
      match ops with
      | [] => True
      | o :: ops' => fits s o /\ all_fit p (db_next p s o) ops'
      end.
  End Fits.
End Spec.
Arguments cop : clear implicits.
Arguments cret : clear implicits.

(** ** Nearest neighbours *)

(** How many results [k] asks for out of [n]; negative [k] counts from the end, as in a Python
    slice. *)
Definition want (k : Z) (n : nat) : nat :=
  if (0 <=? k)%Z then Nat.min (Z.to_nat k) n else n - Z.to_nat (- k).

(** [hits] are [n] nearest records to [q]: different ids, each an actual record with its
    metadata and distance, in order of distance, and no record left out is closer. *)
Record nearest {F Mt} (leb : F -> F -> bool) (dist : list F -> F)
    (recs : list (entry (list F) Mt)) (n : nat) (hits : list (hit F Mt)) : Prop := {
  nn_length : length hits = n;
  nn_distinct : NoDup (map h_id hits);
  nn_true : forall h, In h hits ->
    exists v, In (h_id h, (v, h_meta h)) recs /\ h_dist h = dist v;
  nn_sorted : StronglySorted (fun a b => leb (h_dist a) (h_dist b) = true) hits;
  nn_best : forall id v m h, In (id, (v, m)) recs -> ~ In id (map h_id hits) -> In h hits ->
    leb (h_dist h) (dist v) = true
}.
