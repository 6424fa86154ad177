(** Lemmas about the vocabulary of [PyBase]. *)

From Coq Require Import List Arith ZArith NArith Lia Bool Permutation Sorted.
From Verif Require Import PyBase.
Import ListNotations.

(** ** Monad *)

Lemma bind_Ok {S A B} (m : M S A) (f : A -> M S B) s a s' :
  m s = (Ok a, s') -> bind m f s = f a s'.
Proof. intros E. unfold bind. now rewrite E. Qed.

Lemma bind_Raise {S A B} (m : M S A) (f : A -> M S B) s e s' :
  m s = (Raise e, s') -> bind m f s = (Raise e, s').
Proof. intros E. unfold bind. now rewrite E. Qed.

(** ** Sorting *)

Section SortLemmas.
  Context {A : Type} (leb : A -> A -> bool).

  Lemma insert_perm x l : Permutation (insert leb x l) (x :: l).
  Proof.
    induction l as [|y l IH]; simpl; auto.
    destruct (leb x y); auto.
    eapply perm_trans; [apply perm_skip, IH | apply perm_swap].
  Qed.

  Lemma sort_perm l : Permutation (sort leb l) l.
  Proof.
    induction l as [|x l IH]; simpl; auto.
    eapply perm_trans; [apply insert_perm | now apply perm_skip].
  Qed.

  Lemma sort_length l : length (sort leb l) = length l.
  Proof. apply Permutation_length, sort_perm. Qed.

  Lemma In_sort x l : In x (sort leb l) <-> In x l.
  Proof.
    split; apply Permutation_in; [apply sort_perm | symmetry; apply sort_perm].
  Qed.

  (** Total preorder on the elements satisfying [P]. *)
  Definition total_on (P : A -> Prop) : Prop :=
    (forall x y, P x -> P y -> leb x y = true \/ leb y x = true) /\
    (forall x y z, P x -> P y -> P z -> leb x y = true -> leb y z = true -> leb x z = true).

  Lemma insert_sorted (P : A -> Prop) x l :
    total_on P -> P x -> Forall P l ->
    StronglySorted (fun a b => leb a b = true) l ->
    StronglySorted (fun a b => leb a b = true) (insert leb x l).
  Proof.
    intros [Htot Htr] Px. induction l as [|y l IH]; intros HP Hs; simpl.
    - repeat constructor.
    - inversion HP as [|? ? Py Pl]; subst. inversion Hs as [|? ? Hs' Hy]; subst.
      destruct (leb x y) eqn:E.
      + constructor; auto. constructor; auto.
        rewrite Forall_forall in *. intros z Hz. eapply Htr with (y := y); eauto.
      + constructor; auto.
        assert (leb y x = true) as Eyx by (destruct (Htot x y); congruence).
        eapply Permutation_Forall; [symmetry; apply insert_perm|].
        constructor; auto.
  Qed.

  Lemma sort_sorted (P : A -> Prop) l :
    total_on P -> Forall P l ->
    StronglySorted (fun a b => leb a b = true) (sort leb l).
  Proof.
    intros Ht. induction l as [|x l IH]; intros HP; simpl.
    - constructor.
    - inversion HP; subst. apply insert_sorted with (P := P); auto.
      eapply Permutation_Forall; [symmetry; apply sort_perm | auto].
  Qed.
End SortLemmas.

(** First [k] elements of a strongly sorted list precede the rest. *)
Lemma StronglySorted_app_inv {A} (R : A -> A -> Prop) l1 l2 :
  StronglySorted R (l1 ++ l2) ->
  StronglySorted R l1 /\ StronglySorted R l2 /\ (forall x y, In x l1 -> In y l2 -> R x y).
Proof.
  induction l1 as [|a l1 IH]; simpl; intros H.
  - repeat split; auto. constructor. intros; tauto.
  - inversion H as [|? ? Hs Hf]; subst. destruct (IH Hs) as (S1 & S2 & Hx).
    rewrite Forall_app in Hf. destruct Hf as [F1 F2].
    repeat split; auto.
    + now constructor.
    + intros x y [->|Hin] Hy; auto. rewrite Forall_forall in F2. auto.
Qed.

Lemma StronglySorted_firstn {A} (R : A -> A -> Prop) k l :
  StronglySorted R l -> StronglySorted R (firstn k l).
Proof.
  intros H. rewrite <- (firstn_skipn k l) in H. now apply StronglySorted_app_inv in H.
Qed.

Lemma StronglySorted_firstn_skipn {A} (R : A -> A -> Prop) k l x y :
  StronglySorted R l -> In x (firstn k l) -> In y (skipn k l) -> R x y.
Proof.
  intros H. rewrite <- (firstn_skipn k l) in H. apply StronglySorted_app_inv in H.
  intros. now apply H.
Qed.

Lemma StronglySorted_map {A B} (f : A -> B) (R : B -> B -> Prop) l :
  StronglySorted (fun x y => R (f x) (f y)) l <-> StronglySorted R (map f l).
Proof.
  induction l as [|a l IH]; simpl; split; intros H; try constructor;
    inversion H; subst; auto.
  - now apply IH.
  - now rewrite Forall_map.
  - now apply IH.
  - now rewrite Forall_map in *.
Qed.

Lemma NoDup_firstn {A} k (l : list A) : NoDup l -> NoDup (firstn k l).
Proof.
  intros H. rewrite <- (firstn_skipn k l) in H.
  revert H. generalize (skipn k l). generalize (firstn k l). clear l.
  intros l. induction l as [|a l IH]; intros l1 H; [constructor|].
  inversion H; subst. constructor.
  - intros Hin. apply H2. apply in_or_app. auto.
  - eapply IH; eauto.
Qed.

Lemma In_firstn {A} k (x : A) l : In x (firstn k l) -> In x l.
Proof. intros H. rewrite <- (firstn_skipn k l). apply in_or_app. auto. Qed.

Lemma In_skipn {A} k (x : A) l : In x (skipn k l) -> In x l.
Proof. intros H. rewrite <- (firstn_skipn k l). apply in_or_app. auto. Qed.

Lemma firstn_map_comm {A B} (f : A -> B) k l : firstn k (map f l) = map f (firstn k l).
Proof. revert l; induction k; destruct l; simpl; auto. now rewrite IHk. Qed.

(** ** [remove_first] *)

Lemma remove_first_In {A} `{EqDec A} (x y : A) l :
  NoDup l -> (In y (remove_first x l) <-> y <> x /\ In y l).
Proof.
  induction l as [|a l IH]; simpl; intros Hnd.
  - tauto.
  - inversion Hnd as [|? ? Ha Hl]; subst. destruct (eqb_spec x a) as [->|].
    + split.
      * intros Hy. split; auto. intros ->. tauto.
      * intros [Hn [Ea|]]; auto. congruence.
    + simpl. rewrite IH by auto. split; intuition congruence.
Qed.

Lemma remove_first_NoDup {A} `{EqDec A} (x : A) l : NoDup l -> NoDup (remove_first x l).
Proof.
  induction l as [|a l IH]; simpl; intros Hnd; auto.
  inversion Hnd as [|? ? Ha Hl]; subst. destruct (eqb_spec x a); auto.
  constructor; auto. intros Hin. apply remove_first_In in Hin; tauto.
Qed.

Lemma remove_first_filter {A} `{EqDec A} (x : A) l :
  NoDup l -> remove_first x l = filter (fun y => negb (eqb x y)) l.
Proof.
  induction l as [|a l IH]; simpl; intros Hnd; auto.
  inversion Hnd as [|? ? Ha Hl]; subst. destruct (eqb_spec x a) as [->|]; simpl.
  - clear IH Hnd. induction l as [|b l IHl]; simpl; auto.
    rewrite (eqb_neq a b) by (intros ->; apply Ha; simpl; auto). simpl.
    f_equal. inversion Hl; subst. apply IHl; auto. intros Hin. apply Ha. simpl. auto.
  - now rewrite IH.
Qed.

Lemma remove_first_length {A} `{EqDec A} (x : A) l :
  In x l -> S (length (remove_first x l)) = length l.
Proof.
  induction l as [|a l IH]; simpl; try tauto.
  intros Hin. destruct (eqb_spec x a); auto. simpl. f_equal. apply IH. intuition congruence.
Qed.

Lemma remove_first_notin {A} `{EqDec A} (x : A) l : ~ In x l -> remove_first x l = l.
Proof.
  induction l as [|a l IH]; simpl; auto. intros Hin.
  destruct (eqb_spec x a); [subst; tauto|]. f_equal. tauto.
Qed.

(** ** Misc *)

Lemma NoDup_snoc {A} (x : A) l : NoDup l -> ~ In x l -> NoDup (l ++ [x]).
Proof.
  intros. apply Permutation_NoDup with (l := x :: l).
  - apply Permutation_cons_append.
  - now constructor.
Qed.

#[export] Hint Extern 1 (NoDup (dkeys (dset _ _ _))) => apply NoDup_dkeys_dset : core.
#[export] Hint Extern 1 (NoDup (dkeys (ddel _ _))) => apply NoDup_dkeys_ddel : core.
