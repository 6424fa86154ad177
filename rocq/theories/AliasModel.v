(** [MemoryStorage] over a heap of Python objects, to see which objects are shared between the
    backend and its callers.

    Source: /repo/src/valori/storage/memory.py.  Arrays, dictionaries and lists are objects with
    an address; what a dictionary or list contains is an atom (number, string, ...) or a reference.
    The statistics (memory.py:60-66) read objects and keep no reference; they are left out here. *)

From Coq Require Import List Arith ZArith NArith Bool.
From Verif Require Import PyBase PyMore.
Import ListNotations.
Open Scope py_scope.

(** Contents of a dictionary or list entry. *)
Inductive pyval : Type := PAtom (z : Z) | PRef (a : nat).

(** Objects.  Arrays are numeric: they hold no references. *)
Inductive pyobj : Type :=
| PArr (l : list Z)
| PDict (d : dict pystr pyval)
| PList (l : list pyval).

(** The addresses an object refers to. *)
Definition val_refs (v : pyval) : list nat := match v with PAtom _ => [] | PRef a => [a] end.
Definition refs (o : pyobj) : list nat :=
  match o with
  | PArr _ => []
  | PDict d => flat_map val_refs (map snd d)
  | PList l => flat_map val_refs l
  end.

(** The heap (the object at address [a] is the [a]-th) and the fields of [MemoryStorage]
    (memory.py:22-29): the dictionaries hold addresses. *)
Record shared : Type := MkSh {
  h_heap : list pyobj;
  h_vectors : dict pystr nat;
  h_metadata : dict pystr nat;
  h_init : bool
}.

Definition set_h_vectors x (s : shared) : shared := MkSh (h_heap s) x (h_metadata s) (h_init s).
Definition set_h_metadata x (s : shared) : shared := MkSh (h_heap s) (h_vectors s) x (h_init s).

(** A new object. *)
Definition alloc (o : pyobj) : M shared nat :=
  s <- get ;;
  modify (fun s => MkSh (h_heap s ++ [o]) (h_vectors s) (h_metadata s) (h_init s)) ;;;
  ret (length (h_heap s)).

(** [x.copy()] for an array, a dictionary or a list: a new object with the same entries; objects
    the entries refer to are not copied. *)
Definition copy_obj (a : nat) : M shared nat :=
  s <- get ;;
  match nth_error (h_heap s) a with
  | Some o => alloc o
  | None => raise EAttr
  end.

(** [initialize] and [close]; memory.py:31-38, 167-174. *)
Definition sh_initialize : M shared unit := modify (fun s => MkSh (h_heap s) [] [] true).
Definition sh_close : M shared unit := modify (fun s => MkSh (h_heap s) [] [] false).

(** memory.py:52-58 and 122-129. *)
Definition sh_write (id : pystr) (vector : nat) (metadata : option nat) : M shared unit :=
  v <- copy_obj vector ;;
  modify (fun s => set_h_vectors (dset id v (h_vectors s)) s) ;;;
  match metadata with
  | Some m =>
      m' <- copy_obj m ;;
      modify (fun s => set_h_metadata (dset id m' (h_metadata s)) s)
  | None => modify (fun s => set_h_metadata (ddel id (h_metadata s)) s)
  end.

(** [store_vector]; memory.py:40-70. *)
Definition sh_store (id : pystr) (vector : nat) (metadata : option nat) : M shared bool :=
  match id with
  | [] => ret false
  | _ =>
      s <- get ;;
      if negb (h_init s) then raise EStorage
      else wrap EStorage (sh_write id vector metadata ;;; ret true)
  end.

(** [retrieve_vector]; memory.py:72-83: the array is copied, the dictionary is the stored one. *)
Definition sh_retrieve (id : pystr) : M shared (option (nat * option nat)) :=
  s <- get ;;
  if negb (h_init s) then raise EStorage
  else match dget id (h_vectors s) with
       | None => ret None
       | Some a => v <- copy_obj a ;; ret (Some (v, dget id (h_metadata s)))
       end.

(** [delete_vector]; memory.py:85-108. *)
Definition sh_delete (id : pystr) : M shared bool :=
  s <- get ;;
  if negb (h_init s) then raise EStorage
  else if dmem id (h_vectors s)
       then modify (fun s => set_h_vectors (ddel id (h_vectors s)) s) ;;;
            modify (fun s => set_h_metadata (ddel id (h_metadata s)) s) ;;; ret true
       else ret false.

(** [update_vector]; memory.py:110-140. *)
Definition sh_update (id : pystr) (vector : nat) (metadata : option nat) : M shared bool :=
  s <- get ;;
  if negb (h_init s) then raise EStorage
  else if dmem id (h_vectors s)
       then wrap EStorage (sh_write id vector metadata ;;; ret true)
       else ret false.

(** ** Callers *)

(** What happens: calls of the backend with objects the callers have, new objects they make, and
    changes of any kind to the contents of objects they can get at. *)
Inductive happening : Type :=
| HInit
| HClose
| HStore (id : pystr) (vector : nat) (metadata : option nat)
| HUpdate (id : pystr) (vector : nat) (metadata : option nat)
| HRetrieve (id : pystr)
| HDelete (id : pystr)
| HNew (o : pyobj)
| HWrite (a : nat) (o : pyobj).

(** The program: the backend and heap, the addresses in the callers' variables, and among them
    the metadata dictionaries received from [retrieve_vector]. *)
Record world : Type := MkWorld { w_sh : shared; w_held : list nat; w_got : list nat }.

Definition world0 : world := MkWorld (MkSh [] [] [] false) [] [].

(** The addresses the callers can get at: their variables, and what is referred to from there. *)
Inductive reach (w : world) : nat -> Prop :=
| reach_held a : In a (w_held w) -> reach w a
| reach_ref a o b : reach w a -> nth_error (h_heap (w_sh w)) a = Some o -> In b (refs o) -> reach w b.

(** What callers can do. *)
Definition possible (w : world) (e : happening) : Prop :=
  match e with
  | HInit | HClose | HRetrieve _ | HDelete _ => True
  | HStore _ v m | HUpdate _ v m => reach w v /\ forall a, m = Some a -> reach w a
  | HNew o => forall b, In b (refs o) -> reach w b
  | HWrite a o => reach w a /\ forall b, In b (refs o) -> reach w b
  end.

(** The program after it. *)
Definition happens (e : happening) (w : world) : world :=
  let s := w_sh w in
  match e with
  | HInit => MkWorld (snd (sh_initialize s)) (w_held w) (w_got w)
  | HClose => MkWorld (snd (sh_close s)) (w_held w) (w_got w)
  | HStore id v m => MkWorld (snd (sh_store id v m s)) (w_held w) (w_got w)
  | HUpdate id v m => MkWorld (snd (sh_update id v m s)) (w_held w) (w_got w)
  | HDelete id => MkWorld (snd (sh_delete id s)) (w_held w) (w_got w)
  | HRetrieve id =>
      match sh_retrieve id s with
      | (Ok (Some (v, Some m)), s') => MkWorld s' (v :: m :: w_held w) (m :: w_got w)
      | (Ok (Some (v, None)), s') => MkWorld s' (v :: w_held w) (w_got w)
      | (_, s') => MkWorld s' (w_held w) (w_got w)
      end
  | HNew o => MkWorld (snd (alloc o s)) (length (h_heap s) :: w_held w) (w_got w)
  | HWrite a o =>
      MkWorld (MkSh (set_nth a o (h_heap s)) (h_vectors s) (h_metadata s) (h_init s))
              (w_held w) (w_got w)
  end.

Fixpoint possible_all (w : world) (es : list happening) : Prop :=
  match es with
  | [] => True
  | e :: r => possible w e /\ possible_all (happens e w) r
  end.

Definition happen_all (es : list happening) (w : world) : world :=
  fold_left (fun w e => happens e w) es w.
