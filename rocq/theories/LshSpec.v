(** What an LSH index is expected to do, written without its tables: numbered slots, each holding
    a vector with its metadata or nothing. *)

From Coq Require Import List Arith ZArith NArith Bool Permutation Sorted.
From Verif Require Import PyBase PyMore Payload Num LshModel.
Import ListNotations.

(** Calls on the index object, and what they answer. *)
Inductive lop (F Mt : Type) : Type :=
| LInit
| LInsert (o : lsh_orc F) (arr : ndarray F) (meta : option (list (option Mt)))
| LSearch (o : lsh_orc F) (q : ndarray F) (k : Z)
| LDelete (ids : list pystr)
| LUpdate (id : pystr) (v : list F) (m : option Mt)
| LClear
| LClose.
Arguments LInit {F Mt}.
Arguments LInsert {F Mt} o arr meta.
Arguments LSearch {F Mt} o q k.
Arguments LDelete {F Mt} ids.
Arguments LUpdate {F Mt} id v m.
Arguments LClear {F Mt}.
Arguments LClose {F Mt}.

Inductive lret (F Mt : Type) : Type :=
| LUnit
| LIds (ids : list pystr)
| LHits (hits : list (lsh_hit F Mt))
| LBool (b : bool)
| LExn (e : exn).
Arguments LUnit {F Mt}.
Arguments LIds {F Mt} ids.
Arguments LHits {F Mt} hits.
Arguments LBool {F Mt} b.
Arguments LExn {F Mt} e.

Section Run.
  Context {F Mt : Type} `{Num F} `{Payload (list F) Mt}.
  Context (n_tables hash_size n_proj : nat) (lmt : lsh_metric) (threshold : F) (empty : Mt).

  (** One call of the model. *)
  Definition lsh_step (op : lop F Mt) (x : lsh F Mt) : lret F Mt * lsh F Mt :=
    let ans {A} (f : A -> lret F Mt) (r : result A * lsh F Mt) :=
      (match fst r with Ok a => f a | Raise e => LExn e end, snd r) in
    match op with
    | LInit => ans (fun _ => LUnit) (lsh_initialize n_tables x)
    | LInsert o arr meta => ans LIds (lsh_insert n_tables hash_size n_proj empty o arr meta x)
    | LSearch o q k => ans LHits (lsh_search n_tables hash_size n_proj lmt threshold o q k x)
    | LDelete ids => ans LBool (lsh_delete n_tables hash_size n_proj ids x)
    | LUpdate id v m => ans LBool (lsh_update n_tables hash_size n_proj id v m x)
    | LClear => ans (fun _ => LUnit) (lsh_clear n_tables x)
    | LClose => ans (fun _ => LUnit) (lsh_close n_tables x)
    end.

  Fixpoint lsh_run (ops : list (lop F Mt)) (x : lsh F Mt) : list (lret F Mt) * lsh F Mt :=
    match ops with
    | [] => ([], x)
    | op :: ops' =>
        let (r, x') := lsh_step op x in
        let (rs, x'') := lsh_run ops' x' in (r :: rs, x'')
    end.

  (** State and answers after a history on a new index. *)
  Definition lsh_after (ops : list (lop F Mt)) : lsh F Mt := snd (lsh_run ops lsh_new).
  Definition lsh_answers (ops : list (lop F Mt)) : list (lret F Mt) := fst (lsh_run ops lsh_new).

  (** ** Specification *)

  (** [sl_slots]: slot [i] belongs to id [i]; [None] is a deleted id. *)
  Record slots : Type := MkSl {
    sl_open : bool; sl_dim : option nat; sl_slots : list (option (list F * Mt))
  }.

  (** The index that is expected before the first call. *)
  Definition no_slots : slots := MkSl false None [].

  (** The slot meant by an id string. *)
  Definition slot_of (id : pystr) : option nat :=
    match py_int id with
    | Some z => if (0 <=? z)%Z then Some (Z.to_nat z) else None
    | None => None
    end.

  (** The record under an id string. *)
  Definition live_at (l : list (option (list F * Mt))) (id : pystr) : option (list F * Mt) :=
    match slot_of id with
    | Some i => match nth_error l i with Some o => o | None => None end
    | None => None
    end.

  (** Slots with the one of [id] replaced. *)
  Definition put_at (l : list (option (list F * Mt))) (id : pystr) (o : option (list F * Mt)) :=
    match slot_of id with Some i => set_nth i o l | None => l end.

  Definition del_at l id := match live_at l id with Some _ => put_at l id None | None => l end.

  (** Dimension an insert of [rows] works with. *)
  Definition dim_for (s : slots) (rows : list (list F)) : nat :=
    match sl_dim s with Some d => d | None => width rows end.

  (** Rows that may be stored: of dimension [d], not empty, finite. *)
  Definition rows_ok (d : nat) (rows : list (list F)) : bool :=
    Nat.eqb (width rows) d && forallb (fun r => negb (Nat.eqb (length r) 0) && forallb nfinite r) rows.

  Definition metas_for (n : nat) (meta : option (list (option Mt))) : list (option Mt) :=
    match meta with Some l => l | None => repeat (Some empty) n end.

  Definition the_meta (m : option Mt) : Mt := match m with Some d => d | None => empty end.

  (** The records an accepted insert adds. *)
  Definition new_slots rows meta : list (option (list F * Mt)) :=
    map (fun '(v, m) => Some (v, the_meta m)) (combine rows (metas_for (length rows) meta)).

  (** State after a call. *)
  Definition sl_next (s : slots) (op : lop F Mt) : slots :=
    match op with
    | LInit => MkSl true (sl_dim s) (sl_slots s)
    | LInsert _ (Mat rows) meta =>
        if sl_open s && Nat.eqb (length rows) (length (metas_for (length rows) meta)) then
          MkSl true (Some (dim_for s rows))
               (if rows_ok (dim_for s rows) rows then sl_slots s ++ new_slots rows meta
                else sl_slots s)
        else s
    | LInsert _ _ _ | LSearch _ _ _ => s
    | LDelete ids => if sl_open s then MkSl true (sl_dim s) (fold_left del_at ids (sl_slots s)) else s
    | LUpdate id v m =>
        if sl_open s then
          match live_at (sl_slots s) id with
          | Some (_, m0) =>
              MkSl true (sl_dim s)
                   (put_at (sl_slots s) id (Some (v, match m with Some d => d | None => m0 end)))
          | None => s
          end
        else s
    | LClear => MkSl (sl_open s) (sl_dim s) []
    | LClose => MkSl false (sl_dim s) []
    end.

  Definition sl_after (ops : list (lop F Mt)) : slots := fold_left sl_next ops no_slots.

  (** What the libraries promise: a matrix of the right shape, one offset per projection, and set
      iteration visits every element once. *)
  Definition lsh_orc_ok (o : lsh_orc F) : Prop :=
    (forall d, length (o_proj o d) = n_proj /\ Forall (fun r => length r = d) (o_proj o d)) /\
    length (o_offsets o) = n_proj /\
    (forall l, Permutation (o_order o l) l).

  (** Metadata that can be copied. *)
  Definition meta_fine (m : option Mt) : Prop := exists d, m = Some d /\ copyable d = true.

  (** An id string that is not a negative number. *)
  Definition not_negative (id : pystr) : Prop :=
    forall z, py_int id = Some z -> (0 <= z)%Z.

  (** Calls that respect the interface: numpy matrices are rectangular, metadata are
      dictionaries, updates keep the dimension, ids are not negative numbers, and an index is
      initialised only when it is not in use. *)
  Definition lfits (s : slots) (op : lop F Mt) : Prop :=
    match op with
    | LInit => sl_open s = false
    | LInsert o arr meta =>
        lsh_orc_ok o /\
        (forall rows, arr = Mat rows -> Forall (fun r => length r = width rows) rows) /\
        (forall l m, meta = Some l -> In m l -> meta_fine m)
    | LSearch o _ _ => lsh_orc_ok o
    | LDelete ids => Forall not_negative ids
    | LUpdate id v m =>
        not_negative id /\
        (live_at (sl_slots s) id <> None -> sl_dim s = Some (length v)) /\
        (m = None \/ meta_fine m)
    | LClear | LClose => True
    end.

  Fixpoint lhistory (s : slots) (ops : list (lop F Mt)) : Prop :=
    match ops with
    | [] => True
    | op :: ops' => lfits s op /\ lhistory (sl_next s op) ops'
    end.

  (** ** Hash codes *)

  (** Bit [j] of the code of table [t]. *)
  Definition code_bit (pr : list (list F) * list F) (v : list F) (t j : nat) : bool :=
    nleb nzero (nadd (dot (nth ((t * hash_size + j) mod n_proj) (fst pr) []) v) (nth j (snd pr) nzero)).

  Definition code_of pr v t : list bool := map (code_bit pr v t) (seq 0 hash_size).

  (** The entries a table should hold: the code of every live vector with its id. *)
  Fixpoint live_entries pr (t : nat) (i : nat) (vs : list (option (list F))) : list (list bool * Z) :=
    match vs with
    | [] => []
    | None :: vs' => live_entries pr t (S i) vs'
    | Some v :: vs' => (code_of pr v t, Z.of_nat i) :: live_entries pr t (S i) vs'
    end.

  (** The entries a table does hold. *)
  Definition entries (tb : dict (list bool) (list Z)) : list (list bool * Z) :=
    flat_map (fun '(c, l) => map (pair c) l) tb.

  (** ** Answers *)

  (** A list of results that a search may answer. *)
  Record lsh_sound (s : slots) (q : list F) (k : Z) (hits : list (lsh_hit F Mt)) : Prop := {
    ls_live : forall h, In h hits -> exists i v m,
        lh_id h = Z.of_nat i /\ nth_error (sl_slots s) i = Some (Some (v, m)) /\
        lsh_similarity lmt q v = Ok (lh_score h) /\ lh_meta h = Some m /\
        nleb threshold (lh_score h) = true;
    ls_distinct : NoDup (map lh_id hits);
    ls_sorted : StronglySorted (fun a b => nleb (lh_score b) (lh_score a) = true) hits;
    ls_count : (0 <= k)%Z -> length hits <= Z.to_nat k
  }.

  (** The answer to a call, given the slots before it. *)
  Definition lans_ok (s : slots) (op : lop F Mt) (r : lret F Mt) : Prop :=
    match op with
    | LInit | LClear | LClose => r = LUnit
    | LInsert _ arr meta =>
        match arr with
        | Mat rows =>
            if sl_open s && Nat.eqb (length rows) (length (metas_for (length rows) meta)) &&
               rows_ok (dim_for s rows) rows
            then r = LIds (map (fun i => str_nat (length (sl_slots s) + i)) (seq 0 (length rows)))
            else exists e, r = LExn e
        | _ => exists e, r = LExn e
        end
    | LSearch _ arr k =>
        if sl_open s then
          match sl_dim s with
          | None => r = LHits []
          | Some d =>
              match arr with
              | Vec q =>
                  if Nat.eqb (length q) d && negb (Nat.eqb d 0) && forallb nfinite q
                  then exists hits, r = LHits hits /\ lsh_sound s q k hits
                  else r = LExn EValidation
              | _ => r = LExn EValidation
              end
          end
        else r = LExn EIndex
    | LDelete _ => r = LBool (sl_open s)
    | LUpdate id _ _ =>
        if sl_open s
        then r = LBool (match live_at (sl_slots s) id with Some _ => true | None => false end)
        else r = LExn EIndex
    end.

  Fixpoint lconforms (s : slots) (ops : list (lop F Mt)) (rs : list (lret F Mt)) : Prop :=
    match ops, rs with
    | [], [] => True
    | op :: ops', r :: rs' => lans_ok s op r /\ lconforms (sl_next s op) ops' rs'
    | _, _ => False
    end.
End Run.
Arguments MkSl {F Mt} _ _ _.
Arguments sl_open {F Mt} _.
Arguments sl_dim {F Mt} _.
Arguments sl_slots {F Mt} _.
