(** Specification of a storage backend, independent of the three implementations: one ordered
    list of records, and what each call must answer. *)

From Coq Require Import List Arith ZArith NArith Lia Bool Permutation.
From Verif Require Import PyBase Payload.
Import ListNotations.

(** A record: key, vector, metadata. *)
Notation entry V Mt := (pystr * (V * option Mt))%type.

Section Spec.
  Context {V Mt : Type}.

  (** The value recorded under [k], if any. *)
  Fixpoint sp_find (k : pystr) (recs : list (entry V Mt)) : option (V * option Mt) :=
    match recs with
    | [] => None
    | (k', x) :: rest => if eqb k k' then Some x else sp_find k rest
    end.

  (** Record [x] under [k]: in place when [k] is present, at the end otherwise. *)
  Definition sp_put (k : pystr) (x : V * option Mt) (recs : list (entry V Mt)) : list (entry V Mt) :=
    match sp_find k recs with
    | Some _ => map (fun e => if eqb k (fst e) then (k, x) else e) recs
    | None => recs ++ [(k, x)]
    end.

  (** Forget [k]. *)
  Definition sp_del (k : pystr) (recs : list (entry V Mt)) : list (entry V Mt) :=
    filter (fun e => negb (eqb k (fst e))) recs.

  (** Calls a user can make on a backend.  [OReopen] is a process restart: the object is
      dropped and constructed again over the same data directory. *)
  Inductive sop : Type :=
  | OInit
  | OStore (id : pystr) (v : V) (m : option Mt)
  | ORetrieve (id : pystr)
  | ODelete (id : pystr)
  | OUpdate (id : pystr) (v : V) (m : option Mt)
  | OList (limit : option Z)
  | OStats
  | OClose
  | OReopen.

  (** What a call returns. *)
  Inductive sret : Type :=
  | RUnit
  | RBool (b : bool)
  | RRec (r : option (V * option Mt))
  | RIds (l : list pystr)
  | RStats (st : option (Z * option N))
  | RExn (e : exn).

  (** Abstract state: whether calls are accepted, and the records. *)
  Record sstate : Type := MkS { s_open : bool; s_recs : list (entry V Mt) }.

  Section Machine.
    (** [persistent]: records survive close and restart.  [ordered]: listing is in first-store
        order.  [sized]: statistics report the byte total.  [key]: the name an id is recorded
        under. *)
    Context (persistent ordered : bool) (sized : option (V * option Mt -> N))
            (key : pystr -> pystr).

    (** The first [limit] elements in the sense of a Python slice bound. *)
    Definition cut (limit : option Z) (l : list pystr) : list pystr :=
      match limit with
      | None => l
      | Some k => if (0 <=? k)%Z then firstn (Z.to_nat k) l
                  else firstn (length l - Z.to_nat (Z.abs k)) l
      end.

    (** State after a call. *)
    Definition sp_next (s : sstate) (o : sop) : sstate :=
      match o with
      | OInit => MkS true (if persistent then s_recs s else [])
      | OClose | OReopen => MkS false (if persistent then s_recs s else [])
      | OStore id v m =>
          if s_open s
          then match id with
               | [] => s
               | _ => MkS true (sp_put (key id) (v, m) (s_recs s))
               end
          else s
      | OUpdate id v m =>
          if s_open s
          then match sp_find (key id) (s_recs s) with
               | Some _ => MkS true (sp_put (key id) (v, m) (s_recs s))
               | None => s
               end
          else s
      | ODelete id =>
          if s_open s then MkS true (sp_del (key id) (s_recs s)) else s
      | ORetrieve _ | OList _ | OStats => s
      end.

    (** Total size of the records. *)
    Definition total_bytes (sz : V * option Mt -> N) (recs : list (entry V Mt)) : N :=
      fold_right (fun e a => (sz (snd e) + a)%N) 0%N recs.

    (** Answers a call may give in a state. *)
    Definition sp_ans (s : sstate) (o : sop) (r : sret) : Prop :=
      match o with
      | OInit | OClose | OReopen => r = RUnit
      | OStore [] _ _ => r = RBool false
      | OStats =>
          if s_open s
          then r = RStats (Some (Z.of_nat (length (s_recs s)),
                                 match sized with
                                 | Some sz => Some (total_bytes sz (s_recs s))
                                 | None => None
                                 end))
          else r = RStats None
      | _ =>
          if s_open s
          then match o with
               | OStore _ _ _ => r = RBool true
               | ORetrieve id => r = RRec (sp_find (key id) (s_recs s))
               | ODelete id | OUpdate id _ _ =>
                   r = RBool (match sp_find (key id) (s_recs s) with
                              | Some _ => true
                              | None => false
                              end)
               | OList limit =>
                   exists l, Permutation l (map fst (s_recs s)) /\
                             (ordered = true -> l = map fst (s_recs s)) /\
                             r = RIds (cut limit l)
               | _ => False
               end
          else r = RExn EStorage
      end.

    (** The answers [rets] of a whole history are all allowed. *)
    Fixpoint conforms (s : sstate) (ops : list sop) (rets : list sret) : Prop :=
      match ops, rets with
      | [], [] => True
      | o :: ops', r :: rets' => sp_ans s o r /\ conforms (sp_next s o) ops' rets'
      | _, _ => False
      end.
  End Machine.

  (** ** One id at a time *)

  (** A second, even simpler reading of a history, for one id only: whether the backend accepts
      calls and what is recorded for the id.  [same j]: the call's id [j] denotes the same
      record. *)
  Definition one_next (persistent : bool) (same : pystr -> bool)
      (st : bool * option (V * option Mt)) (o : sop) : bool * option (V * option Mt) :=
    let (open, cur) := st in
    match o with
    | OInit => (true, if persistent then cur else None)
    | OClose | OReopen => (false, if persistent then cur else None)
    | OStore [] _ _ => st
    | OStore j v m => if open && same j then (open, Some (v, m)) else st
    | OUpdate j v m =>
        match cur with
        | Some _ => if open && same j then (open, Some (v, m)) else st
        | None => st
        end
    | ODelete j => if open && same j then (open, None) else st
    | ORetrieve _ | OList _ | OStats => st
    end.

  (** The id's record after a history that starts with nothing recorded. *)
  Definition one_hist (persistent : bool) (same : pystr -> bool) (ops : list sop)
      : bool * option (V * option Mt) :=
    fold_left (one_next persistent same) ops (false, None).
End Spec.
Arguments sop : clear implicits.
Arguments sret : clear implicits.
Arguments sstate : clear implicits.

(** The file-safe form of an id, character by character: letters, digits, '.', '_' and '-' stay,
    everything else becomes '_'. *)
Inductive file_safe (is_alnum : N -> bool) : pystr -> pystr -> Prop :=
| fs_nil : file_safe is_alnum [] []
| fs_keep c s t :
    is_alnum c = true \/ c = 46%N \/ c = 95%N \/ c = 45%N ->
    file_safe is_alnum s t -> file_safe is_alnum (c :: s) (c :: t)
| fs_replace c s t :
    is_alnum c = false -> c <> 46%N -> c <> 95%N -> c <> 45%N ->
    file_safe is_alnum s t -> file_safe is_alnum (c :: s) (95%N :: t).

Section Args.
  Context {V Mt : Type} `{Payload V Mt}.

  (** Metadata with a [copy] method, as every dictionary has. *)
  Definition meta_copy (m : option Mt) : Prop :=
    match m with Some x => copyable x = true | None => True end.

  (** Metadata that can be pickled, as every dictionary of plain data can. *)
  Definition meta_pickle (m : option Mt) : Prop :=
    match m with Some x => picklable x = true | None => True end.

  (** Both. *)
  Definition meta_ok (m : option Mt) : Prop := meta_copy m /\ meta_pickle m.

  (** The metadata argument of a call, if it has one, satisfies [P]. *)
  Definition op_meta (P : option Mt -> Prop) (o : sop V Mt) : Prop :=
    match o with
    | OStore _ _ m | OUpdate _ _ m => P m
    | _ => True
    end.

  (** Calls each backend can serve: memory copies metadata, disk pickles it, hybrid does both. *)
  Definition op_copy : sop V Mt -> Prop := op_meta meta_copy.
  Definition op_pickle : sop V Mt -> Prop := op_meta meta_pickle.
  Definition op_ok : sop V Mt -> Prop := op_meta meta_ok.

  (** The size a record contributes to the memory statistics: array bytes plus printed
      metadata. *)
  Definition rec_size (x : V * option Mt) : N :=
    (nbytes (fst x) + match snd x with Some m => strbytes m | None => 0 end)%N.

  (** The id argument of a call, if it has one, satisfies [J]. *)
  Definition op_id_in (J : pystr -> Prop) (o : sop V Mt) : Prop :=
    match o with
    | OStore id _ _ | ORetrieve id | ODelete id | OUpdate id _ _ => J id
    | _ => True
    end.
End Args.

(** Ids in [I] have pairwise different file-safe forms. *)
Definition separated `{Unicode} (I : pystr -> Prop) : Prop :=
  forall i j t, I i -> I j -> file_safe isalnum i t -> file_safe isalnum j t -> i = j.
