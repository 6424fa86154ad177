(** Common vocabulary for the Gallina rendering of the Python sources.

    Nothing here is specific to valori.  The definitions give the meaning of the Python
    language features the sources use: results and exceptions, statements that mutate an
    object and may raise half-way, insertion-ordered dictionaries, slices, [list.sort]. *)

From Coq Require Import List Arith ZArith NArith Lia Bool Permutation Sorted.
From Coq Require String Ascii.
Import ListNotations.

(** ** Exceptions and results *)

(** Exception classes.  The first group is /repo/src/valori/exceptions.py:1-60, the second is
    Python's own.  Messages are not modelled. *)
Inductive exn : Type :=
| EStorage | EIndex | EQuant | EPersist | EValidation | EParsing | EProcessing | EValori
| EConfig
| EType | EValue | EKey | EIndexRange | EAttr | EAssert | EUnbound | EOs | EZeroDiv.

(** Outcome of a call: a value or an exception. *)
Inductive result (A : Type) : Type :=
| Ok (a : A)
| Raise (e : exn).
Arguments Ok {A} a.
Arguments Raise {A} e.

(** Outcome of a pure call, sequenced. *)
Definition rbind {A B} (r : result A) (f : A -> result B) : result B :=
  match r with Ok a => f a | Raise e => Raise e end.

(** A method on an object with state [S]: it returns or raises, and leaves a new state in
    both cases (mutations made before a raise are kept). *)
Definition M (S A : Type) : Type := S -> result A * S.

(** [return a]. *)
Definition ret {S A} (a : A) : M S A := fun s => (Ok a, s).
(** [raise e]. *)
Definition raise {S A} (e : exn) : M S A := fun s => (Raise e, s).
(** Statement sequencing; an exception skips the rest. *)
Definition bind {S A B} (m : M S A) (f : A -> M S B) : M S B :=
  fun s => match m s with
           | (Ok a, s') => f a s'
           | (Raise e, s') => (Raise e, s')
           end.
(** Read the object's fields. *)
Definition get {S} : M S S := fun s => (Ok s, s).
(** Assign the object's fields. *)
Definition modify {S} (f : S -> S) : M S unit := fun s => (Ok tt, f s).
(** A pure call that may raise. *)
Definition lift {S A} (r : result A) : M S A := fun s => (r, s).
(** [try: m  except Exception as e: raise E(...)]. *)
Definition wrap {S A} (E : exn) (m : M S A) : M S A :=
  fun s => match m s with
           | (Ok a, s') => (Ok a, s')
           | (Raise _, s') => (Raise E, s')
           end.
(** [try: m  except Exception: h]. *)
Definition catch {S A} (m : M S A) (h : M S A) : M S A :=
  fun s => match m s with
           | (Ok a, s') => (Ok a, s')
           | (Raise _, s') => h s'
           end.
(** Call a method of a component object stored in a field. *)
Definition zoom {S T A} (gt : S -> T) (st : T -> S -> S) (m : M T A) : M S A :=
  fun s => match m (gt s) with (r, t) => (r, st t s) end.

Declare Scope py_scope.
Delimit Scope py_scope with py.
Notation "x <- m ;; k" := (bind m (fun x => k))
  (at level 61, m at next level, right associativity) : py_scope.
Notation "m ;;; k" := (bind m (fun _ => k))
  (at level 61, right associativity) : py_scope.
Open Scope py_scope.

(** [for x in l: body x]. *)
Fixpoint forM {S A} (l : list A) (body : A -> M S unit) : M S unit :=
  match l with
  | [] => ret tt
  | x :: l' => body x ;;; forM l' body
  end.

(** [[f x for x in l]] where [f] may raise. *)
Fixpoint mapM {S A B} (l : list A) (f : A -> M S B) : M S (list B) :=
  match l with
  | [] => ret []
  | x :: l' => y <- f x ;; ys <- mapM l' f ;; ret (y :: ys)
  end.

(** ** Decidable equality *)

(** Boolean equality with its specification. *)
Class EqDec (A : Type) : Type := {
  eqb : A -> A -> bool;
  eqb_spec : forall x y, reflect (x = y) (eqb x y)
}.

Arguments eqb {A EqDec} x y : simpl never.

#[export] Instance EqDec_nat : EqDec nat := {| eqb := Nat.eqb; eqb_spec := Nat.eqb_spec |}.
#[export] Instance EqDec_Z : EqDec Z := {| eqb := Z.eqb; eqb_spec := Z.eqb_spec |}.
#[export] Instance EqDec_N : EqDec N := {| eqb := N.eqb; eqb_spec := N.eqb_spec |}.

(** Equality of lists from equality of elements. *)
Fixpoint list_eqb {A} `{EqDec A} (x y : list A) : bool :=
  match x, y with
  | [], [] => true
  | a :: x', b :: y' => eqb a b && list_eqb x' y'
  | _, _ => false
  end.

Lemma list_eqb_spec {A} `{EqDec A} : forall x y : list A, reflect (x = y) (list_eqb x y).
Proof.
  induction x as [|a x IH]; destruct y as [|b y]; simpl; try (constructor; congruence).
  destruct (eqb_spec a b); simpl.
  - destruct (IH y); constructor; congruence.
  - constructor; congruence.
Qed.

#[export] Instance EqDec_list {A} `{EqDec A} : EqDec (list A) :=
  {| eqb := list_eqb; eqb_spec := list_eqb_spec |}.

Lemma eqb_refl {A} `{EqDec A} (x : A) : eqb x x = true.
Proof. destruct (eqb_spec x x); congruence. Qed.

Lemma eqb_neq {A} `{EqDec A} (x y : A) : x <> y -> eqb x y = false.
Proof. destruct (eqb_spec x y); congruence. Qed.

Lemma eqb_eq {A} `{EqDec A} (x y : A) : eqb x y = true <-> x = y.
Proof. destruct (eqb_spec x y); split; congruence. Qed.

Lemma eqb_false {A} `{EqDec A} (x y : A) : eqb x y = false <-> x <> y.
Proof. destruct (eqb_spec x y); split; congruence. Qed.

(** [x in l] for a list. *)
Fixpoint memb {A} `{EqDec A} (x : A) (l : list A) : bool :=
  match l with
  | [] => false
  | y :: l' => eqb x y || memb x l'
  end.

Lemma memb_spec {A} `{EqDec A} (x : A) (l : list A) : reflect (In x l) (memb x l).
Proof.
  induction l as [|y l IH]; simpl.
  - constructor. tauto.
  - destruct (eqb_spec x y); simpl.
    + constructor. auto.
    + destruct IH; constructor; intuition congruence.
Qed.

Lemma memb_In {A} `{EqDec A} (x : A) (l : list A) : memb x l = true <-> In x l.
Proof. destruct (memb_spec x l); split; congruence || tauto. Qed.

Lemma memb_false {A} `{EqDec A} (x : A) (l : list A) : memb x l = false <-> ~ In x l.
Proof. destruct (memb_spec x l); split; congruence || tauto. Qed.

(** [l.remove(x)]: drops the first occurrence; the Python method raises when absent, which the
    callers exclude by testing membership first. *)
Fixpoint remove_first {A} `{EqDec A} (x : A) (l : list A) : list A :=
  match l with
  | [] => []
  | y :: l' => if eqb x y then l' else y :: remove_first x l'
  end.

(** ** Strings *)

(** A Python [str] is a sequence of code points. *)
Notation pystr := (list N) (only parsing).

(** String literals. *)
Definition py (s : String.string) : pystr :=
  map Ascii.N_of_ascii (String.list_ascii_of_string s).
Arguments py s%string_scope.

(** ** Insertion-ordered dictionaries *)

Definition dict (K V : Type) : Type := list (K * V).

Section Dict.
  Context {K V : Type} `{EqDec K}.

  (** [d.get(k)]. *)
  Fixpoint dget (k : K) (d : dict K V) : option V :=
    match d with
    | [] => None
    | (k', v) :: d' => if eqb k k' then Some v else dget k d'
    end.

  (** [k in d]. *)
  Definition dmem (k : K) (d : dict K V) : bool :=
    match dget k d with Some _ => true | None => false end.

  (** [d[k] = v]: keeps the position of an existing key, appends a new one. *)
  Fixpoint dset (k : K) (v : V) (d : dict K V) : dict K V :=
    match d with
    | [] => [(k, v)]
    | (k', v') :: d' => if eqb k k' then (k, v) :: d' else (k', v') :: dset k v d'
    end.

  (** [d.pop(k, None)], also [del d[k]] where the key is known to be present. *)
  Fixpoint ddel (k : K) (d : dict K V) : dict K V :=
    match d with
    | [] => []
    | (k', v') :: d' => if eqb k k' then ddel k d' else (k', v') :: ddel k d'
    end.

  (** [list(d.keys())]. *)
  Definition dkeys (d : dict K V) : list K := map fst d.
  (** [list(d.values())]. *)
  Definition dvals (d : dict K V) : list V := map snd d.

  Lemma dget_dset_same k v d : dget k (dset k v d) = Some v.
  Proof.
    induction d as [|[k' v'] d IH]; simpl.
    - now rewrite eqb_refl.
    - destruct (eqb_spec k k'); simpl.
      + now rewrite eqb_refl.
      + rewrite (eqb_neq k k') by auto. exact IH.
  Qed.

  Lemma dget_dset_other k j v d : j <> k -> dget j (dset k v d) = dget j d.
  Proof.
    intros Hjk. induction d as [|[k' v'] d IH]; simpl.
    - now rewrite (eqb_neq j k).
    - destruct (eqb_spec k k'); simpl.
      + subst. now rewrite (eqb_neq j k').
      + destruct (eqb j k'); auto.
  Qed.

  Lemma dget_dset k j v d : dget j (dset k v d) = if eqb j k then Some v else dget j d.
  Proof.
    destruct (eqb_spec j k) as [->|].
    - apply dget_dset_same.
    - now apply dget_dset_other.
  Qed.

  Lemma dget_ddel_same k d : dget k (ddel k d) = None.
  Proof.
    induction d as [|[k' v'] d IH]; simpl; auto.
    destruct (eqb_spec k k'); simpl; auto.
    rewrite (eqb_neq k k'); auto.
  Qed.

  Lemma dget_ddel_other k j d : j <> k -> dget j (ddel k d) = dget j d.
  Proof.
    intros Hjk. induction d as [|[k' v'] d IH]; simpl; auto.
    destruct (eqb_spec k k'); simpl.
    - subst. now rewrite (eqb_neq j k').
    - destruct (eqb j k'); auto.
  Qed.

  Lemma dget_ddel k j d : dget j (ddel k d) = if eqb j k then None else dget j d.
  Proof.
    destruct (eqb_spec j k) as [->|].
    - apply dget_ddel_same.
    - now apply dget_ddel_other.
  Qed.

  Lemma dget_In k d : (exists v, dget k d = Some v) <-> In k (dkeys d).
  Proof.
    induction d as [|[k' v'] d IH]; simpl.
    - split; [intros [v Hv]; discriminate | tauto].
    - destruct (eqb_spec k k').
      + subst. split; eauto.
      + rewrite IH. intuition congruence.
  Qed.

  Lemma dget_None k d : dget k d = None <-> ~ In k (dkeys d).
  Proof.
    rewrite <- dget_In. destruct (dget k d); split; intros.
    - discriminate.
    - exfalso. eauto.
    - intros [v Hv]. discriminate.
    - reflexivity.
  Qed.

  Lemma dget_Some_In k v d : dget k d = Some v -> In (k, v) d.
  Proof.
    induction d as [|[k' v'] d IH]; simpl; try discriminate.
    destruct (eqb_spec k k'); intros; [left; congruence | auto].
  Qed.

  Lemma In_dget k v d : NoDup (dkeys d) -> In (k, v) d -> dget k d = Some v.
  Proof.
    induction d as [|[k' v'] d IH]; simpl; try tauto.
    intros Hnd [E|Hin]; inversion Hnd; subst.
    - inversion E; subst. now rewrite eqb_refl.
    - rewrite eqb_neq; auto. intros ->. apply H2. change k' with (fst (k', v)).
      now apply in_map.
  Qed.

  Lemma dmem_In k d : dmem k d = true <-> In k (dkeys d).
  Proof.
    unfold dmem. rewrite <- dget_In. destruct (dget k d).
    - split; eauto.
    - split; [discriminate | intros [v Hv]; discriminate].
  Qed.

  Lemma dmem_false k d : dmem k d = false <-> dget k d = None.
  Proof. unfold dmem. destruct (dget k d); split; congruence. Qed.

  Lemma dkeys_dset_in k v d : In k (dkeys d) -> dkeys (dset k v d) = dkeys d.
  Proof.
    induction d as [|[k' v'] d IH]; simpl; try tauto.
    intros Hin. destruct (eqb_spec k k'); simpl.
    - now subst.
    - f_equal. apply IH. intuition congruence.
  Qed.

  Lemma dkeys_dset_notin k v d : ~ In k (dkeys d) -> dkeys (dset k v d) = dkeys d ++ [k].
  Proof.
    induction d as [|[k' v'] d IH]; simpl; auto.
    intros Hin. destruct (eqb_spec k k'); simpl.
    - subst. tauto.
    - f_equal. apply IH. tauto.
  Qed.

  Lemma dset_notin k v d : ~ In k (dkeys d) -> dset k v d = d ++ [(k, v)].
  Proof.
    induction d as [|[k' v'] d IH]; simpl; auto.
    intros Hin. destruct (eqb_spec k k'); simpl.
    - subst. tauto.
    - f_equal. apply IH. tauto.
  Qed.

  Lemma In_dkeys_dset j k v d : In j (dkeys (dset k v d)) <-> j = k \/ In j (dkeys d).
  Proof.
    rewrite <- !dget_In, dget_dset. destruct (eqb_spec j k).
    - subst. split; eauto.
    - intuition.
  Qed.

  Lemma In_dkeys_ddel j k d : In j (dkeys (ddel k d)) <-> j <> k /\ In j (dkeys d).
  Proof.
    rewrite <- !dget_In, dget_ddel. destruct (eqb_spec j k).
    - split; [intros [v Hv]; discriminate | tauto].
    - tauto.
  Qed.

  Lemma NoDup_dkeys_dset k v d : NoDup (dkeys d) -> NoDup (dkeys (dset k v d)).
  Proof.
    intros Hnd. destruct (memb_spec k (dkeys d)).
    - now rewrite dkeys_dset_in.
    - rewrite dkeys_dset_notin by auto.
      apply Permutation_NoDup with (l := k :: dkeys d).
      + apply Permutation_cons_append.
      + now constructor.
  Qed.

  Lemma dkeys_ddel k d : dkeys (ddel k d) = filter (fun j => negb (eqb k j)) (dkeys d).
  Proof.
    induction d as [|[k' v'] d IH]; simpl; auto.
    destruct (eqb k k'); simpl; auto. now f_equal.
  Qed.

  Lemma NoDup_dkeys_ddel k d : NoDup (dkeys d) -> NoDup (dkeys (ddel k d)).
  Proof. intros. rewrite dkeys_ddel. now apply NoDup_filter. Qed.

  Lemma ddel_notin k d : ~ In k (dkeys d) -> ddel k d = d.
  Proof.
    induction d as [|[k' v'] d IH]; simpl; auto.
    intros Hin. destruct (eqb_spec k k').
    - subst. tauto.
    - f_equal. tauto.
  Qed.

  Lemma length_dset k v d :
    length (dset k v d) = if dmem k d then length d else S (length d).
  Proof.
    unfold dmem. induction d as [|[k' v'] d IH]; simpl; auto.
    destruct (eqb k k'); simpl; auto. rewrite IH. destruct (dget k d); auto.
  Qed.
End Dict.

(** ** Slices *)

(** CPython's clamping of a slice bound [k] for a sequence of length [n]. *)
Definition slice_bound (n : nat) (k : Z) : nat :=
  if (k <? 0)%Z then Z.to_nat (Z.max 0 (Z.of_nat n + k))
  else Nat.min (Z.to_nat k) n.

(** [l[:k]]. *)
Definition slice_to {A} (k : Z) (l : list A) : list A :=
  firstn (slice_bound (length l) k) l.

(** [l[k:]]. *)
Definition slice_from {A} (k : Z) (l : list A) : list A :=
  skipn (slice_bound (length l) k) l.

(** [l[a:b]]. *)
Definition slice {A} (a b : Z) (l : list A) : list A :=
  skipn (slice_bound (length l) a) (firstn (slice_bound (length l) b) l).

Lemma slice_to_nonneg {A} (k : Z) (l : list A) :
  (0 <= k)%Z -> slice_to k l = firstn (Z.to_nat k) l.
Proof.
  intros Hk. unfold slice_to, slice_bound.
  destruct (Z.ltb_spec k 0); try lia.
  destruct (Nat.le_gt_cases (Z.to_nat k) (length l)).
  - now rewrite Nat.min_l.
  - rewrite Nat.min_r by lia. now rewrite firstn_all, firstn_all2 by lia.
Qed.

Lemma slice_to_neg {A} (k : Z) (l : list A) :
  (k < 0)%Z -> slice_to k l = firstn (length l - Z.to_nat (- k)) l.
Proof.
  intros Hk. unfold slice_to, slice_bound.
  destruct (Z.ltb_spec k 0); try lia. f_equal. lia.
Qed.

(** ** [list.sort] *)

Section Sort.
  Context {A : Type}.

  (** Insert before the first element that is not smaller. *)
  Fixpoint insert (leb : A -> A -> bool) (x : A) (l : list A) : list A :=
    match l with
    | [] => [x]
    | y :: l' => if leb x y then x :: l else y :: insert leb x l'
    end.

  (** [list.sort]: stable ascending sort for the order [leb].  Python's timsort and this
      insertion sort agree whenever [leb] is a total preorder, since the stably sorted list
      is then unique. *)
  Fixpoint sort (leb : A -> A -> bool) (l : list A) : list A :=
    match l with
    | [] => []
    | x :: l' => insert leb x (sort leb l')
    end.
End Sort.

(** [enumerate(l)]. *)
Definition enumerate {A} (l : list A) : list (nat * A) := combine (seq 0 (length l)) l.
